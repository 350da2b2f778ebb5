{"id": "C01", "title": "Integer operators are exact or flagged", "statement": "For every pair of Strict integers of one type: +, -, *, unary -, ++ and -- return the mathematical result when it is representable; otherwise an unsigned type returns the result modulo 2^w and a signed type is undefined behaviour (no check catches it).", "quantifier": "all integer types (int, long, unsigned, unsigned long), all operand values, all build configurations", "why_tests_cant": "2^128 operand pairs; the boundary between exact and undefined is a statement about every pair", "anchors": ["strictpp/StrictCommon/strict_val.hpp: Strict::operator-, ++, --, operator+, operator-, operator*"]}
{"id": "C02", "title": "Division and remainder: checked zero, truncating quotient, the one unchecked trap", "statement": "With checks active, x/y and x%y report an error for y=0; for y\u22600 the results satisfy x=(x/y)*y+x%y, |x%y|<|y| and x%y has the sign of x; the only remaining undefined case is MIN/-1 and MIN%-1 of a signed type, which no check catches.", "quantifier": "all integer types, all operand pairs, all configurations", "why_tests_cant": "the uncaught pair is one in 2^128 and the identity must hold for all others", "anchors": ["strictpp/StrictCommon/strict_val.hpp: operator/, operator%, operator/=, operator%="]}
{"id": "C03", "title": "Shifts: what the sign checks catch and what they miss", "statement": "With checks active, shifting a negative signed value or by a negative amount is reported; for amounts below the width x<<y is x*2^y modulo 2^w (reinterpreted in the type) and x>>y is floor(x/2^y); an amount >= the width is undefined behaviour and is never reported.", "quantifier": "all integer types, all operand pairs, all configurations", "why_tests_cant": "depends on every (value, amount) pair", "anchors": ["strictpp/StrictCommon/strict_val.hpp: operator<<, operator>>, operator<<=, operator>>="]}
{"id": "C04", "title": "Integer power never overflows early", "statement": "pows(x,p) for integers returns x^p exactly whenever x^p is representable, for signed types is undefined exactly when x^p is not representable, and for unsigned types returns x^p modulo 2^w; negative exponents are reported when checks are active.", "quantifier": "all bases and all exponents of every integer type", "why_tests_cant": "square-and-multiply could overflow in an intermediate square for some base/exponent although the final power fits; tests cannot sweep all bases", "anchors": ["strictpp/StrictCommon/strict_math.hpp: pows (Integer)"]}
{"id": "C05", "title": "factorial is exact on its whole safe domain", "statement": "factorial(n) returns n! exactly for 0<=n<=20, is reported for n<0 when checks are active, and is signed-overflow undefined behaviour for every n>=21.", "quantifier": "every 64-bit n", "why_tests_cant": "needs the statement for all n, including that no larger n is accidentally fine", "anchors": ["strictpp/StrictCommon/strict_val_ops.hpp: factorial"]}
{"id": "C06", "title": "binom_coeff is exact exactly when k*C(n,k) fits", "statement": "For 0<=k<=n<LONG_MAX, every intermediate division is exact and binom_coeff(n,k)=C(n,k) whenever k*C(n,k) is representable, and is undefined behaviour otherwise, even when C(n,k) itself fits (e.g. C(62,31)); the result is not computed through the smaller of k and n-k.", "quantifier": "all n,k in the 64-bit range", "why_tests_cant": "the source comment claims divisibility without proof; overflow boundary ranges over all n,k", "anchors": ["strictpp/StrictCommon/strict_val_ops.hpp: binom_coeff"]}
{"id": "C07", "title": "clamps / in_open / in_closed / mins / maxs / abss / signs", "statement": "On integers clamps(x,lo,hi) is the nearest point of [lo,hi] to x and is reported when lo>hi; in_open/in_closed decide lo<x<hi and lo<=x<=hi; mins/maxs are the lattice operations; signs(x)*abss(x)=x; abss is undefined exactly for the most negative value of a signed type.", "quantifier": "all values of all integer types", "why_tests_cant": "universally quantified order laws plus one exceptional value", "anchors": ["strictpp/StrictCommon/strict_val_ops.hpp: clamps,in_open,in_closed", "strictpp/StrictCommon/strict_math.hpp: signs,abss,mins,maxs"]}
{"id": "C08", "title": "fast_pows_int computes the p-th power in any ring", "statement": "In any structure where multiplication is associative with unit 1, fast_pows_int(x,p) is the |p|-fold product of x for p>=0 and the reciprocal of it for p<0, using O(log|p|) multiplications, and is undefined behaviour only for p = LONG_MIN.", "quantifier": "all exponents in the 64-bit range, all bases of any monoid", "why_tests_cant": "loop over the binary expansion for 2^64 exponents", "anchors": ["strictpp/StrictCommon/strict_val_ops.hpp: fast_pows_int"]}
{"id": "C09", "title": "two_sums is an error-free transformation", "statement": "If x+y does not overflow and |y| is below the largest finite number (or the first difference the code forms is finite), two_sums(x,y) returns (r,s) with r the correctly rounded sum and r+s=x+y exactly (over the reals), in every binary format. A non-finite sum comes with a NaN residue. Without the condition on y the claim is false: there are finite x,y with a finite sum and a NaN residue.", "quantifier": "all finite x,y of every binary floating-point format with round-to-nearest", "why_tests_cant": "2^128 inputs for double alone", "anchors": ["strictpp/StrictCommon/strict_val_ops.hpp: two_sums"]}
{"id": "C10", "title": "two_prods is an error-free transformation", "statement": "If x*y neither overflows nor its rounding error underflows, two_prods(x,y) returns (r,s) with r the correctly rounded product and r+s=x*y exactly.", "quantifier": "all finite x,y of every binary floating-point format", "why_tests_cant": "2^128 inputs for double alone", "anchors": ["strictpp/StrictCommon/strict_val_ops.hpp: two_prods", "strictpp/StrictCommon/strict_math.hpp: fmas"]}
{"id": "C11", "title": "pow_prods is a compensated power to first order", "statement": "For every p>=0, the pair returned by pow_prods(x,p) sums to x^p exactly up to products of two rounding residues (i.e. exactly when residues multiply to zero), and exactly x^p when all products are exact; negative p is reported.", "quantifier": "all exponents, all bases, any exact product splitting", "why_tests_cant": "the algorithm has seven cases and a buffer indexed by p/2; only an induction over p covers all of them", "anchors": ["strictpp/StrictCommon/strict_val_ops.hpp: pow_prods"]}
{"id": "C12", "title": "stable_sum keeps an exact error decomposition", "statement": "For every array of finite values whose partial sums do not overflow, the running sum used by stable_sum plus the exact values of the collected corrections equals the exact sum of all elements, each correction being the exact rounding error of its addition; over exact arithmetic stable_sum equals the plain sum.", "quantifier": "arrays of every length and every content", "why_tests_cant": "ranges over all arrays; the ill-conditioned ones are exactly those tests miss", "anchors": ["strictpp/array_stable_ops.hpp: stable_sum"]}
{"id": "C13", "title": "stable_dot_prod keeps an exact error decomposition", "statement": "For every pair of equal-size arrays without over/underflow, high part plus the exact per-step residues equals the exact dot product; over exact arithmetic stable_dot_prod equals dot_prod; mismatched sizes are reported.", "quantifier": "arrays of every length and content", "why_tests_cant": "ranges over all pairs of arrays", "anchors": ["strictpp/array_stable_ops.hpp: stable_dot_prod"]}
{"id": "C14", "title": "stable_prod keeps an exact error decomposition", "statement": "The product of all elements equals the computed product plus the sum over steps of the step residue times the product of all later elements; over exact arithmetic stable_prod equals prod for every array, including the empty and singleton ones.", "quantifier": "arrays of every length and content", "why_tests_cant": "suffix products are accumulated in a stateful lazily evaluated lambda; correctness depends on evaluation order for every length", "anchors": ["strictpp/array_stable_ops.hpp: stable_prod"]}
{"id": "C15", "title": "semi_stable_sum uses every element exactly once", "statement": "For every length, the 64-element blocks and the remainder taken from the end partition the index range: over any commutative exact arithmetic semi_stable_sum(A) equals sum(A).", "quantifier": "arrays of every length", "why_tests_cant": "off-by-one in block/remainder split shows only at particular residues modulo 64", "anchors": ["strictpp/array_stable_ops.hpp: semi_stable_sum"]}
{"id": "C16", "title": "Special values in stable summation", "statement": "stable_sum of an array containing an infinity (or whose running sum overflows) is NaN even where the plain sum is a well-defined infinity.", "quantifier": "all arrays containing +inf with otherwise finite elements", "why_tests_cant": "statement about every such array", "anchors": ["strictpp/array_stable_ops.hpp: stable_sum", "strictpp/array_ops.hpp: sum"]}
{"id": "C17", "title": "seqN validity is exactly in-bounds addressing", "statement": "seqN{start,size,stride} is accepted for an array of n elements exactly when every addressed index start+i*stride (0<=i<size) lies in [0,n), for positive, negative and zero strides and empty slices - provided stride*(size-1) and the sum do not overflow, in which case the check itself is undefined behaviour.", "quantifier": "all starts, sizes, strides, array lengths", "why_tests_cant": "only the first and last index are checked by the code; that this suffices is a theorem over all strides", "anchors": ["strictpp/slice.hpp: seqN, SliceArrayWrapper<seqN>::map", "strictpp/ArrayCommon/valid.hpp: valid_index"]}
{"id": "C18", "title": "seq addresses exactly first, first+stride, ... up to last", "statement": "Every seq accepted by its constructor converts to a non-empty slice addressing exactly the indices first+i*stride that lie between first and last inclusive, and if first and last are valid all addressed indices are valid; no overflow is possible.", "quantifier": "all first,last,stride in the 64-bit range", "why_tests_cant": "truncating division with negative strides over the whole range", "anchors": ["strictpp/slice.hpp: seq, seq::to_slice"]}
{"id": "C19", "title": "Placeholders: all, even, odd, reverse, skipN, firstN, lastN", "statement": "all is the identity; even and odd partition the indices in order; reverse is the order reversal (an involution); skipN(k) addresses exactly the multiples of k; firstN/lastN are prefixes/suffixes; all addressed indices are in range for every array length including 0; firstN/lastN with too large a count are reported.", "quantifier": "all array lengths, all strides and counts", "why_tests_cant": "size formulas with rounding must be right for every length/stride residue", "anchors": ["strictpp/slice.hpp: SliceWrapper<All|Even|Odd|Reverse|skipN|firstN|lastN>"]}
{"id": "C20", "title": "Index vectors and complement", "statement": "An index-vector slice is accepted exactly when all its entries are in range and then addresses exactly them in order; complement(v) is accepted exactly when v is strictly increasing and in range and then addresses exactly the indices not in v, in increasing order, so v and its complement partition the array.", "quantifier": "all index vectors and array lengths", "why_tests_cant": "ranges over all subsets", "anchors": ["strictpp/ArrayCommon/valid.hpp: valid_slice_vector,valid_complement_index_vector,complement_index_vector", "strictpp/slice.hpp: SliceWrapper<complement>"]}
{"id": "C21", "title": "Indexing with last", "statement": "A[last - k] denotes element size-1-k and A[last + k] element size-1+k; with checks active, any index (plain or relative to last) outside [0,size) is reported and any index inside returns that element; at() does the same even with debug checks compiled out.", "quantifier": "all sizes, all offsets, all configurations", "why_tests_cant": "universal over sizes and offsets", "anchors": ["strictpp/StrictCommon/auxiliary_types.hpp: Last, operator+, operator-", "strictpp/ArrayCommon/index_helper.hpp: IndexWrapper", "strictpp/derived1D.hpp: operator[], un, at"]}
{"id": "C22", "title": "Reading and writing through a slice", "statement": "Reading element i of an accepted slice returns the addressed element of the array; writing it changes exactly that element and no other; size() is the slice size; this composes for slices of slices.", "quantifier": "all arrays, all accepted slices of slices to any depth", "why_tests_cant": "unbounded nesting and all slices", "anchors": ["strictpp/slicearray_base1D.hpp", "strictpp/slice.hpp: SliceArrayWrapper", "strictpp/derived1D.hpp: operator()"]}
{"id": "C23", "title": "Assigning overlapping slices copies front to back", "statement": "Assigning from a slice of the same array is equivalent to assigning from a snapshot whenever no element is read after it was overwritten (in particular for left shifts); for reversal and right shifts the result differs from the snapshot semantics.", "quantifier": "all arrays, all shift distances", "why_tests_cant": "depends on the relation between read and write order for every size", "anchors": ["strictpp/slicearray_base1D.hpp: operator=", "strictpp/ArrayCommon/algorithm.hpp: copy"]}
{"id": "C24", "title": "1D resize / insert / remove behave like list edits", "statement": "On every array, resize keeps the common prefix and zero-fills, insert(pos,x) / insert(pos,A) splices, remove(pos,count), remove(last-k), remove(indices) delete exactly the named elements, preserving the order of the others; out-of-range arguments are reported when checks are active.", "quantifier": "all arrays, positions, counts, index lists", "why_tests_cant": "copy offsets must be right at every position", "anchors": ["strictpp/array_base1D.hpp: resize,remove,remove_front,remove_back,insert,insert_front,insert_back,resize_and_assign"]}
{"id": "C25", "title": "1D arrays stay consistent under any history", "statement": "After any sequence of constructions, assignments, swaps, moves, resizes, inserts and removes (some of which may fail with an exception), every array's reported size equals its storage size, contents equal those of the list model, and a failed operation leaves its array unchanged; no operation on valid arguments is undefined behaviour.", "quantifier": "all finite operation sequences over any number of arrays", "why_tests_cant": "unbounded histories", "anchors": ["strictpp/array_base1D.hpp"]}
{"id": "C26", "title": "Argument arithmetic in remove can overflow before it is rejected", "statement": "With checks active, remove(pos,count) is undefined behaviour exactly when count>0, pos is a valid index and pos+count exceeds LONG_MAX, and remove_back(count) exactly when size-count exceeds LONG_MAX; all other invalid arguments are reported.", "quantifier": "all pos,count in the 64-bit range", "why_tests_cant": "exact boundary of the validation arithmetic", "anchors": ["strictpp/array_base1D.hpp: remove, remove_back"]}
{"id": "C27", "title": "2D element (i,j) is row-major and unique", "statement": "For an m x n array the addresses of (i,j) are a bijection onto 0..m*n-1 equal to i*n+j, so writing (i,j) changes only (i,j); linear and two-index access agree; access outside is reported.", "quantifier": "all shapes and index pairs", "why_tests_cant": "bijection over all shapes", "anchors": ["strictpp/array_base2D.hpp: un", "strictpp/ArrayCommon/index_helper.hpp: index_map_one_to_two_dim", "strictpp/derived2D.hpp: operator(),at"]}
{"id": "C28", "title": "2D shape invariant under any history", "statement": "After any sequence of operations on 2D arrays other than self-move-assignment, size = rows*cols, rows=0 iff cols=0, and a failed operation changes nothing.", "quantifier": "all finite operation sequences", "why_tests_cant": "unbounded histories", "anchors": ["strictpp/array_base2D.hpp"]}
{"id": "C29", "title": "2D row/column insertion and removal act on the matrix", "statement": "insert_rows/insert_cols/insert_row/insert_col and remove_rows/remove_cols (by range and by index list) and resize act as the corresponding edits on the list of rows (columns), for every position, including removing everything (giving 0x0) and inserting into an empty array.", "quantifier": "all matrices, positions, counts, index lists", "why_tests_cant": "every position and shape", "anchors": ["strictpp/array_base2D.hpp: resize,insert_rows,insert_cols,insert_row,insert_col,remove_rows,remove_cols"]}
{"id": "C30", "title": "remove_row(last-k) / remove_col(last-k) / exclude(A,last-k) ignore k", "statement": "These calls remove the final row/column/element for every k, so they follow the indexing convention for `last` exactly when k=0 (unlike 1D remove(last-k), which honours k).", "quantifier": "all arrays and offsets", "why_tests_cant": "statement for all k", "anchors": ["strictpp/array_base2D.hpp: remove_row(Last), remove_col(Last)", "strictpp/Expr/special.hpp: exclude(A, Last)", "strictpp/array_base1D.hpp: remove(Last)"]}
{"id": "C31", "title": "Moves leave valid empty arrays, except 2D self-move", "statement": "Move construction and move assignment between distinct arrays transfer contents and leave the source empty (0 or 0x0) and reusable; self-move of a 1D array is a no-op; self-move-assignment of a non-empty 2D array leaves rows=cols=0 with a non-zero size.", "quantifier": "all arrays", "why_tests_cant": "all contents; aliasing cases", "anchors": ["strictpp/array_base1D.hpp: ArrayBase1D(&&), operator=(&&)", "strictpp/array_base2D.hpp: operator=(&&)", "strictpp/fixed_array_base1D.hpp: move"]}
{"id": "C32", "title": "Size-mismatched 2D move assignment corrupts the array when asserts are compiled out", "statement": "With NDEBUG (even with exception checking enabled) moving an array of different shape into a 2D array keeps the old shape with the new storage, after which an in-range access accepted by all checks can be out-of-bounds undefined behaviour.", "quantifier": "configurations and shapes", "why_tests_cant": "needs a witness and the exact condition over all shapes", "anchors": ["strictpp/array_base2D.hpp: operator=(&&)", "strictpp/StrictCommon/error.hpp: NORMAL_ASSERT_STRICT_DEBUG"]}
{"id": "C33", "title": "row, col, diag, block views address the right elements", "statement": "row(i), col(j), diag(k), block, blockN, rows(slice), cols(slice), A(s1,s2) address exactly the mathematical row, column, k-th diagonal, sub-rectangle or product of slices, with the right sizes, for every shape; empty selections are 0x0.", "quantifier": "all shapes, indices, diagonals, slices", "why_tests_cant": "every shape and offset", "anchors": ["strictpp/derived2D.hpp: row,col,diag,diag_slice_impl,block,blockN,rows,cols,operator()", "strictpp/slicearray_base2D.hpp"]}
{"id": "C34", "title": "view1D/view2D reshape is row-major and lossless", "statement": "view2D(m,n) of an array of m*n elements exposes element i*n+j at (i,j); viewing back gives the original order; a size mismatch is reported even with debug checks compiled out; a negative x negative shape passes that check.", "quantifier": "all sizes and shapes", "why_tests_cant": "universal", "anchors": ["strictpp/attach2D.hpp: view2D, convert2D", "strictpp/derived2D.hpp: view1D"]}
{"id": "C35", "title": "Random-access iterators are faithful positions", "statement": "For every array, begin + k dereferences to element k for 0<=k<size, end-begin=size, the order and difference agree with positions, +=/-=/++/-- are inverse, iteration visits every element once in order, dereferencing outside the range and mixing iterators of different arrays is reported when checks are active.", "quantifier": "all arrays, all iterator expressions", "why_tests_cant": "laws over all positions", "anchors": ["strictpp/iterator.hpp: Iterator, ConstIterator"]}
{"id": "C36", "title": "2D index range enumerates the plane", "statement": "Iterating IndexRange2D(m,n) yields every (i,j) with 0<=i<m, 0<=j<n exactly once in row-major order and then stops, for every semi-valid shape including 0x0.", "quantifier": "all shapes", "why_tests_cant": "termination and exactly-once over all shapes", "anchors": ["strictpp/iterator.hpp: PlaneIterator, IndexRange2D"]}
{"id": "C37", "title": "Element-wise expressions evaluate point-wise", "statement": "For every expression tree built from arrays, slices, unary/binary element-wise operators and scalars, element i of the lazily evaluated expression is the operator tree applied to the i-th elements, and its size is the common size; mismatched sizes are reported at construction when checks are active.", "quantifier": "all expression trees over all arrays", "why_tests_cant": "unbounded trees", "anchors": ["strictpp/Expr/types.hpp: UnaryExpr,BinaryExpr", "strictpp/Expr/binary.hpp: generate, generate_const", "strictpp/derived1D.hpp: eval"]}
{"id": "C38", "title": "merge and exclude are concatenation and deletion", "statement": "merge(A,B,...) is concatenation; exclude(A,pos,count) deletes the range; merge_horizontal/merge_vertical place matrices side by side / on top of each other (an empty operand is neutral); shape mismatches are reported.", "quantifier": "all arrays, positions, counts, shapes", "why_tests_cant": "universal", "anchors": ["strictpp/Expr/special.hpp: merge,merge_horizontal,merge_vertical,exclude"]}
{"id": "C39", "title": "transpose is an involution", "statement": "transpose(A) is cols x rows with element (i,j)=A(j,i) under both linear and two-index access, and transpose(transpose(A)) equals A.", "quantifier": "all matrices", "why_tests_cant": "all shapes", "anchors": ["strictpp/Expr/special.hpp: transpose, irange2D"]}
{"id": "C40", "title": "sequence, irange, linspace, e_unit, identity, const arrays", "statement": "sequence(n,a,d) is a+i*d; over exact arithmetic linspace(n,a,b) for n>=2 starts at a and ends at b with equal spacing; for n=1 linspace divides by zero and in floating point returns NaN rather than a; identity and e_unit are the Kronecker deltas.", "quantifier": "all sizes and end points", "why_tests_cant": "universal plus an exceptional size", "anchors": ["strictpp/Expr/special.hpp: sequence,irange,linspace,e_unit,identity,const1D,const2D"]}
{"id": "C41", "title": "Broadcast, tensor, reductions along rows/columns, matrix-vector product", "statement": "row/col_broadcast replicate a vector, tensor_prod is the outer product, row/col_reduce apply the reduction to each row/column, matvec_prod(A,x)_i is the dot product of row i with x, for every shape; size mismatch is reported.", "quantifier": "all shapes and contents", "why_tests_cant": "universal", "anchors": ["strictpp/Expr/types.hpp: BroadCastExpr,TensorExpr,ReduceExpr", "strictpp/Expr/special.hpp", "strictpp/Expr/binary.hpp: matvec_prod,tensor_prod"]}
{"id": "C42", "title": "Array equality decides equality", "statement": "A==B is true exactly when shapes agree and all elements compare equal; it is reflexive/symmetric/transitive when element comparison is; A==A is false for an array containing NaN.", "quantifier": "all arrays", "why_tests_cant": "universal", "anchors": ["strictpp/ArrayCommon/array_auxiliary.hpp: same_size, operator==, operator!="]}
{"id": "C43", "title": "min/max and their indices", "statement": "For non-empty arrays over a strict weak order (in particular a total order), min/max return an element of the array that bounds all others, min_index/max_index return its first position (row-major for 2D) together with it; empty arrays are not reported: they give the caller's default (0, and index -1).", "quantifier": "all arrays", "why_tests_cant": "universal", "anchors": ["strictpp/array_ops.hpp: min,max,min_index,max_index"]}
{"id": "C44", "title": "NaN in min/max/norm_inf is order dependent", "statement": "In floating point a NaN in first position makes min/max NaN, a NaN elsewhere is silently ignored; consequently max, norm_inf and max_abs_error can report a finite value for data containing NaN.", "quantifier": "all arrays containing NaN", "why_tests_cant": "position-dependent over all arrays", "anchors": ["strictpp/array_ops.hpp: min,max,norm_inf", "strictpp/StrictCommon/strict_math.hpp: mins,maxs", "strictpp/Util/error_tools.hpp: max_abs_error"]}
{"id": "C45", "title": "all_of / any_of / none_of", "statement": "On non-empty arrays they decide the universal, existential and negated existential quantifier; on empty arrays they return the configured default (false), so all_of/none_of of an empty array are not vacuously true.", "quantifier": "all arrays and predicates", "why_tests_cant": "universal", "anchors": ["strictpp/array_ops.hpp: all_of,any_of,none_of,has_zero,all_zeros,all_pos"]}
{"id": "C46", "title": "sum, prod, dot_prod, norms, mean over exact arithmetic", "statement": "Over any commutative ring sum/prod/dot_prod equal the mathematical folds; they split over merge; over the reals norm1/norm_inf/norm2 are norms (non-negative, zero only for the zero vector, triangle inequality, homogeneous).", "quantifier": "all arrays", "why_tests_cant": "universal", "anchors": ["strictpp/array_ops.hpp: sum,prod,dot_prod,mean,norm1,norm2,norm_inf"]}
{"id": "C47", "title": "Polynomial evaluation", "statement": "polynomial(coeffs,x) by Horner, polynomial with powers and gpolynomial equal sum c_i x^(p_i) over any commutative ring, for every number of coefficients.", "quantifier": "all coefficient arrays, all powers", "why_tests_cant": "universal", "anchors": ["strictpp/array_ops.hpp: polynomial,gpolynomial"]}
{"id": "C48", "title": "in_cond_range / in_open_range / in_closed_range select exactly", "statement": "They return the sub-array of exactly the elements satisfying the condition in original order, and writing through it changes exactly those.", "quantifier": "all arrays and predicates", "why_tests_cant": "universal", "anchors": ["strictpp/array_ops.hpp: in_open_range,in_closed_range,in_cond_range"]}
{"id": "C49", "title": "semi-random integers stay in range but power-of-two ranges are constant", "statement": "semi_rands(low,high) and semi_random arrays of integers always lie in [low,high] (and below low+10^7) unless high-low+1 is not a value of the type (undefined behaviour); because every raw draw is 5 modulo 8, a range of 2, 4 or 8 values other than (0,1) always yields the same value, and ranges of up to 128 = 2^7 values are constant from the third element of an array on. Floating-point values lie in the bounds when high-low is finite and are +infinity when it overflows.", "quantifier": "all seeds, all draw numbers, all bounds", "why_tests_cant": "over all seeds and unbounded draw sequences", "anchors": ["strictpp/Util/semi_random.hpp: SemiGenerator"]}
{"id": "C50", "title": "semi_rands_not0 does not terminate for some ranges", "statement": "semi_rands_not0(low,high) returns a non-zero in-range value whenever it returns, and returns exactly when some draw gives a non-zero value; for every seed it never returns for (-1,0), (-1,2) and (-5,2), and semi_random_not0 on arrays of 3 or more elements never returns for any range of 2^k <= 128 values with low + 53 mod 2^k = 0.", "quantifier": "all seeds, unbounded number of iterations", "why_tests_cant": "non-termination for every seed cannot be observed by a test", "anchors": ["strictpp/Util/semi_random.hpp: semi_rands_not0, SemiGenerator"]}
{"id": "C51", "title": "Reading a 1D array returns all tokens or changes nothing", "statement": "operator>> into a 1D array yields exactly the sequence of values in the stream for any number of values (buffer growth is invisible); if the stream has a malformed token the failure is reported and the target array is unchanged; a failure never leaves the target partly overwritten. A sign without digits or an out-of-range number as the very last characters of the input is however dropped silently, because only eof() is examined.", "quantifier": "all token sequences", "why_tests_cant": "unbounded input, buffer doubling boundaries", "anchors": ["strictpp/array_IO.hpp: istream_base_read"]}
{"id": "C52", "title": "Reading a 2D array", "statement": "For input whose rows have equal lengths (with blank lines before and empty lines between) the result is exactly that matrix for any number of rows; a short or malformed row is reported with the target unchanged; an over-long row is reported when debug checks are on, and with them compiled out writes outside the buffer, before the row-length check can reject it, exactly when it exceeds the storage of the rows allocated ahead.", "quantifier": "all inputs", "why_tests_cant": "unbounded input", "anchors": ["strictpp/array_IO.hpp: get_first_row,get_row, operator>> 2D"]}
{"id": "C53", "title": "Tolerance predicates", "statement": "within_tol_abs accepts exactly when the rounded distance is at most the tolerance, and is symmetric for all arguments; within_tol_rel is symmetric on non-NaN data; both are reflexive on finite data for non-negative tolerance and monotone in the tolerances; no infinity is within tolerance of itself; with a NaN argument within_tol_rel(NaN,0) is true while within_tol_rel(0,NaN) is false. A negative or NaN tolerance is reported. The array versions hold exactly when all pairs do.", "quantifier": "all arguments and tolerances", "why_tests_cant": "universal plus NaN asymmetry", "anchors": ["strictpp/Util/error_tools.hpp: within_tol_abs,within_tol_rel"]}
{"id": "C54", "title": "Element-wise compound assignment gives no rollback", "statement": "A op= B updates every element to the operator result; if an element operation reports an error (e.g. integer division by zero at index k) exactly the elements before k have been updated; a size mismatch is reported before anything changes.", "quantifier": "all arrays and failing positions", "why_tests_cant": "every failing position", "anchors": ["strictpp/derived_base.hpp: Operands_CRTP", "strictpp/ArrayCommon/algorithm.hpp: apply0,apply1"]}
{"id": "C55", "title": "Size mismatch between temporaries of slices terminates instead of throwing", "statement": "In exception mode assigning one temporary slice to another of the same slice type with a different size cannot be caught: the check throws inside a noexcept operator and the program terminates; assignment from any other source type throws a catchable exception.", "quantifier": "all slices, sizes, configurations", "why_tests_cant": "interplay of noexcept and configuration", "anchors": ["strictpp/derived1D.hpp: StrictArrayMutable1D::operator=(&&) noexcept", "strictpp/slicearray_base1D.hpp: operator="]}
{"id": "C56", "title": "Valid programs do not depend on the checking configuration", "statement": "Any operation of the model whose checks all pass returns the same result in every build configuration (debug on/off, exceptions, NDEBUG), and with checks active no access outside an array's storage ever happens through operator[], operator(), at() or iterators.", "quantifier": "all operations, all configurations", "why_tests_cant": "product of all operations and configurations", "anchors": ["strictpp/StrictCommon/error.hpp", "strictpp/derived1D.hpp", "strictpp/derived2D.hpp"]}
{"id": "C57", "title": "Accuracy of stable summation and dot product", "statement": "Whenever stable_sum returns a finite value v for floating-point data of any length n, |v - exact sum| <= u*|exact sum| + (1+u)*((1+u)^n - 1)^2 * sum of |x_i|, where u is the unit roundoff; the same holds for stable_dot_prod over the products when none underflows. The plain sum only satisfies the first-order bound ((1+u)^(n-1) - 1) * sum of |x_i|.", "quantifier": "all binary formats, all lengths, all finite contents", "why_tests_cant": "The bound is over all inputs of all lengths and compares with exact real arithmetic.", "anchors": ["strictpp/array_stable_ops.hpp"]}
{"id": "C58", "title": "Printing then reading gives back the array", "statement": "For every integer element type, the text printed for a 1D array (column or row style) or a non-empty 2D array (any column width) is read back by operator>> as the same array, in every configuration; printing a 2D array containing the smallest value of a signed type is undefined behaviour.", "quantifier": "all arrays, all integer types, all widths", "why_tests_cant": "all values and sizes; interplay of buffer growth, padding and tokenisation", "anchors": ["strictpp/array_IO.hpp: ostream_base_print, istream_base_read", "strictpp/StrictCommon/strict_IO.hpp: operator<<"]}
{"id": "C59", "title": "Fixed-size arrays keep their size and behave as value types", "statement": "Every sequence of constructions, copies, moves, assignments, swaps, element reads and writes on FixedArray1D objects behaves like the same sequence on lists of constant length, in every build configuration; moving from a fixed array copies it and leaves zeros of the same size (1D and 2D); sources of another size or shape and ragged nested lists are reported and leave the array unchanged, while without checks a shorter 1D source silently overwrites only the beginning and a longer one is undefined behaviour.", "quantifier": "all sizes, contents, program lengths and configurations", "why_tests_cant": "all programs, sizes and configurations; the effect of zeroing moves on std::swap and self-assignment depends on aliasing", "anchors": ["strictpp/fixed_array_base1D.hpp", "strictpp/fixed_array_base2D.hpp"]}
{"id": "C60", "title": "attach1D and attach2D expose exactly the given window of memory", "statement": "attach1D(p, n) and attach2D(p, m, n) give views whose element i (element (i, j)) is p[i] (p[i*n+j]); reading and writing through them or through any views of them touches exactly one element of the window and nothing else, and indexes outside are reported; two attached arrays over overlapping memory see each other's writes exactly where they overlap; negative sizes are reported; a size larger than the memory cannot be detected and is undefined behaviour.", "quantifier": "all sizes, windows, contents, view chains and configurations", "why_tests_cant": "all sizes and nestings; memory safety is not observable by tests", "anchors": ["strictpp/attach1D.hpp: attach1D, strict_attach_ptr1D", "strictpp/attach2D.hpp: attach2D, strict_attach_ptr2D"]}
{"id": "C61", "title": "Sorting and shuffling rearrange exactly the elements of the view", "statement": "sort, sort_increasing and sort_decreasing on any array or view leave a permutation of its elements in the requested order and change nothing outside the view, whatever algorithm std::sort uses; for a total order the result does not depend on the algorithm, sort_decreasing is the reverse of sort_increasing, sorting twice changes nothing and the ends are min(A) and max(A); shuffle leaves a permutation. A comparison that is not a strict weak ordering of the elements (such as <=), a view naming one element twice, and a floating-point array holding a NaN and two different numbers are undefined behaviour.", "quantifier": "all arrays, views, contents, comparisons and sorting algorithms meeting the standard's contract", "why_tests_cant": "all permutations, comparisons and library implementations; undefined behaviour is invisible to tests", "anchors": ["strictpp/array_ops.hpp: sort, sort_increasing, sort_decreasing, shuffle (835-867)"]}
{"id": "C62", "title": "Views that repeat no index have pairwise different elements", "statement": "A chain of views, rows, columns, diagonals, blocks and reshapes of an owning array, nested to any depth, in which every index list is free of repetitions and every strided run has a non-zero stride, never names one element of the storage at two indexes; an index list with a repetition does.", "quantifier": "all arrays, all chains of view operations of any depth", "why_tests_cant": "all compositions of view operations at every depth", "anchors": ["strictpp/slice.hpp", "strictpp/slicearray_base1D.hpp", "strictpp/slicearray_base2D.hpp", "strictpp/derived1D.hpp", "strictpp/derived2D.hpp"]}
{"id": "C63", "title": "Printed floating-point numbers are correctly rounded and read back exactly when the digits suffice", "statement": "Reading decimal text gives the nearest number of the format with its sign, and out-of-range numbers and foreign characters are reported with the array unchanged (except when they end the input). operator<< prints |x| rounded to nearest at the last printed digit. Reading back the printed text of finite numbers, arrays (both styles) and matrices gives the identical numbers whenever 2^prec < 10^p in scientific format, in particular for every finite double with the default format, and in fixed format for multiples of 10^-p. This fails for float and long double with their default precision, and for fixed format in general; infinities, NaN and arrays of bool are printed in a form whose reading is reported, and printing a matrix with an infinity in fixed format is undefined.", "quantifier": "all binary formats, all finite and special values, all precisions, all arrays and matrices, all decimal texts", "why_tests_cant": "2^64 doubles and unbounded decimal texts; exactness depends on number-theoretic bounds", "anchors": ["strictpp/StrictCommon/strict_IO.hpp 76-217", "strictpp/array_IO.hpp 107-325"]}
{"id": "C64", "title": "Random numbers and arrays lie between the bounds; only the named elements change", "statement": "rands and random(A, low, high) give values between low and high for admissible bounds; random(A) fills exactly the elements of the view, in order with consecutive draws, and changes nothing else; several arrays are filled each by its own generator. low > high is reported in checked builds and undefined otherwise. The not0 variants return the first non-zero draw, report (0, 0) when checked and never return for (0, 0) otherwise. random(n) and random(m, n) have the given shape, report negative or half-empty shapes, and a random expression used twice within one expression repeats the same numbers. Fails: for floating-point bounds whose difference overflows the behaviour is undefined although the check passes, and quadruple-precision numbers may lie outside the bounds.", "quantifier": "all distributions keeping their contract, all engine states, all bounds, all views, all sizes, all numbers of draws", "why_tests_cant": "the engine is seeded from the random device, so runs differ; ranges and states are unbounded", "anchors": ["strictpp/Util/random.hpp 142-337, 360-381", "strictpp/Expr/types.hpp 398-427"]}
{"id": "C65", "title": "Literals have the value written or do not compile", "statement": "In a checked build _si and _sl literals have exactly the value written, and a literal the type cannot represent does not compile; without checks it becomes the congruent value of the type. _sul is exact. _sf and _sd give a number of the type with no other between it and the literal, exactly the literal if that is a number of the type, and do not compile when out of range; _sl (long double) and _sq give the nearest number. Fails: _sui reduces modulo 2^32 in every build; _sd is not always the nearest double (it rounds twice); _sq reports valid decimal literals such as 01.5 and drops everything after a digit separator (1'000_sq is 1).", "quantifier": "all literal values, all decimal texts, all build configurations", "why_tests_cant": "there are unboundedly many literals, a literal that does not compile cannot be in a test program, and double rounding shows only for very particular decimals", "anchors": ["strictpp/StrictCommon/strict_literals.hpp 16-112", "strictpp/StrictCommon/config.hpp 85-123", "strictpp/StrictCommon/error.hpp 63-94"]}
{"id": "C66", "title": "Stable polynomials and lp norms", "statement": "Over exact arithmetic stable_polynomial, stable_polynomial with powers and stable_gpolynomial have the value of the polynomial, and the result in floating point is that of the pairs returned by pow_prods, rounded once up to a second order term; mismatched sizes and negative powers are reported, no coefficients give the default. stable_norm_lp and norm_lp_scaled / stable_norm_lp_scaled are (sum |x|^p)^(1/p) and that over n^(1/p); this is a norm, between the maximum norm and the 1-norm, smaller for larger p; p <= 0 is reported. Fails: stable_polynomial(coeffs, x) with more than 2^31 coefficients reports an error on valid arguments, its powers being a sequence of int.", "quantifier": "all coefficient, argument and power lists, all p, any exact arithmetic, all floating-point formats, all build configurations", "why_tests_cant": "the value involves all powers and sizes, the accuracy all rounding patterns, and the int powers wrap only for more than 2^31 coefficients", "anchors": ["strictpp/array_stable_ops.hpp 250-323", "strictpp/array_ops.hpp 527-548", "strictpp/StrictCommon/strict_val_ops.hpp 139-208"]}
{"id": "C67", "title": "Powers, polynomials and lp norms have twice the working precision", "statement": "If pow_prods(x, p) returns finite (r, s) and x^p is not in the underflow range, |r + s - x^p| <= 4 p^2 u^2 |x|^p as long as 8 p u <= 1 (u = 2^-53 for double). A finite result of stable_gpolynomial differs from the exact polynomial by at most u times its absolute value plus (1 + u)(4 Q^2 u^2 + 6 G^2) times the sum of the absolute values of its terms (Q the largest power, G about 2 n u for n terms). The number stable_norm_lp takes the root of is the sum of the |x|^p with relative error u plus a second order term.", "quantifier": "all floating-point formats with at least two digits and prec + 3 <= emax, all arguments, powers, sizes and coefficient lists, all build configurations", "why_tests_cant": "the bound is over all roundings of a loop whose length depends on the power; a test checks single values against a reference that is itself rounded", "anchors": ["strictpp/StrictCommon/strict_val_ops.hpp 139-208", "strictpp/array_stable_ops.hpp 250-323"]}
{"id": "C68", "title": "What the library accepts does not dangle, and where that fails", "statement": "A function, operator, slice or view that keeps a reference to its operand refuses, at compile time, every array that is not an lvalue; iterators, data() and row ranges refuse every rvalue; all other suitable operands are accepted. So a program that compiles and declares variables from these functions (without lval()) never uses an object whose lifetime has ended, whatever the nesting of expressions, slices and blocks. Fails: generate, pow_prod, tensor_prod with one lvalue, indexing a temporary Array1D by a list, and transpose of a temporary slice or expression compile and dangle, and the result of matvec_prod refers to a dead local.", "quantifier": "all types and value categories of operands, all client programs made of declarations, uses and blocks over the functions of the library", "why_tests_cant": "a test can only assert that single calls do not compile; that no program can dangle is a statement about all programs, and a dangling read usually yields the expected value", "anchors": ["strictpp/ArrayCommon/array_traits.hpp 66-106, 183-228", "strictpp/Expr/expr_traits.hpp 31-52", "strictpp/Expr/unary.hpp 103-195, 219-229", "strictpp/Expr/binary.hpp 97-169, 419-431, 715-735", "strictpp/Expr/special.hpp 191-257, 513-518", "strictpp/derived1D.hpp 160-260", "strictpp/derived2D.hpp 199-358, 570-617"]}
{"id": "C69", "title": "Stable means and norms", "statement": "On a non-empty array stable_mean, stable_norm1, stable_norm1_scaled, stable_norm2 and stable_norm2_scaled compute the mean, the sum of absolute values, its mean, the Euclidean norm and the Euclidean norm over sqrt(n), the same values as the functions without the prefix; on an empty array they return the default. In floating point a finite result is within about 1, 2, 2, 3/2 and 4 unit roundoffs (plus terms of order n^2 u^2 and half the smallest positive number for quotients) of the true value, given that squares do not underflow. One product that is not finite makes stable_dot_prod, stable_norm2 and stable_norm2_scaled NaN; so norms and means that are representable can be returned as NaN or 0.", "quantifier": "all arrays and expressions of any size, all elements (NaN and infinities included), all binary floating-point formats, all build configurations", "why_tests_cant": "the error bound must hold for every array of every length; tests compare a few arrays against a tolerance", "anchors": ["strictpp/array_stable_ops.hpp 172-247", "strictpp/array_ops.hpp 340-346, 491-524"]}
{"id": "C70", "title": "Explicit conversions between built-in types", "statement": "strict_cast, builtin_cast, si(), sd(), ..., whole, to_index_t and array_cast give a value of the target type: integers that fit are kept, others reduced modulo 2^bits; integers become the nearest floating-point number (finite, relative error at most the unit roundoff, exact exactly when representable, monotone); finite floating-point numbers are truncated if the result fits; floating-point numbers become the nearest number of the target format. Conversion to a wider type and back is the identity, also for int and unsigned through double and long through long double. Zero, One, ..., Billion are exact in every type. NaN, infinities and numbers out of range converted to an integer, and overflow in narrowing, are undefined and never checked; long through double is not the identity and can be undefined. The tag types report a negative value exactly in checked builds and accept only int and long.", "quantifier": "all values of all built-in types (bool, four integer types, four floating formats, NaN and infinities), all target types, all build configurations", "why_tests_cant": "conversions have 2^64 and more inputs and fail only at the edges of the ranges or by rounding; undefined conversions return some value in a test", "anchors": ["strictpp/StrictCommon/strict_val.hpp 230-265, 279-301, 309-378, 516-560", "strictpp/StrictCommon/auxiliary_types.hpp 37-64, 125-135", "strictpp/Expr/functors.hpp 166-172", "strictpp/Expr/unary.hpp 340-343"]}
{"id": "C71", "title": "Mixed types do not compile; what compiles computes as on built-in types", "statement": "An expression over Strict values that compiles never converts an operand implicitly: operators on Strict values of different types, on a Strict and a built-in value, Strict<T>{x} from another type and conditions that are not boolean are rejected, as are operators the type does not have. Its result has its type and is in range, it fails only by a check that is switched on, checked and unchecked builds agree, and deleting Strict from the program gives the same result under the conversion rules of C++, undefined in the same cases. Exceptions: && and || of two StrictBool always evaluate both operands, so a guarded access such as i != 0 && 10 / i > 1 fails or is undefined where the built-in program is false; a built-in number next to a StrictBool in && is converted to bool.", "quantifier": "all expressions over variables, constants, construction, conversions, unary and binary operators and conditionals, of all built-in types, all values of the variables, all build configurations", "why_tests_cant": "a test can show that single expressions compile or give the expected value; that no expression converts implicitly and every one agrees with the built-in program is a statement about all programs", "anchors": ["strictpp/StrictCommon/strict_val.hpp 33-137, 381-513", "strictpp/StrictCommon/strict_traits.hpp 30-53", "strictpp/StrictCommon/auxiliary_types.hpp 225-244"]}
{"id": "C72", "title": "Errors and tolerances measure what they say", "statement": "abs_error is the distance of two finite numbers rounded once, and zero exactly for equal numbers; rel_error is empty exactly if one argument is zero, and otherwise a finite value is |approx - exact| / |exact| up to two roundings, without underflow, and zero exactly for equal numbers. max_abs_error and max_rel_error are the largest of these over all elements (max_rel_error is empty exactly if some element of either array is zero), with the same accuracy; the two-dimensional and initializer-list overloads compare elements at equal positions and report different shapes and ragged lists. A relative error within a tolerance is accepted by within_tol_rel. Exceptions: rel_error(0, exact) is empty although the relative error is 1; the error of a number against itself is -0.0; the value can be infinite for finite arguments; a NaN outside the first position disappears.", "quantifier": "all floating-point formats, all arguments, all array sizes and shapes, all lists, all build configurations", "why_tests_cant": "tests compare a few numbers with a tolerance; the error bounds, the absence of underflow and the exact condition for an empty result concern all pairs of numbers and all arrays", "anchors": ["strictpp/Util/error_tools.hpp 33-84, 87-160, 163-207"]}
{"id": "C73", "title": "Stored views and iterators when the array changes", "statement": "A view stored in a variable refers to the array variable it was taken from, with sizes and positions fixed when it was taken. In every program of assignments, moves, swaps, resizes and element assignments through arrays and stored views that only uses a view while all positions it needs exist in its array, every read and write through a view reaches the element with the same number (one-dimensional views, rows, columns and diagonals) or the same coordinates (blocks) of the current contents of that variable, and the sizes reported are those at creation. Iterators are checked against the current size and are never undefined in checked builds. Exceptions: using a view whose positions no longer exist is undefined and not reported in any build; after a change of the number of columns a stored row need not be a row any more, and a stored block may silently reach elements of other rows.", "quantifier": "all programs of any length, all chains of views, all array sizes and shapes, all build configurations, any element type", "why_tests_cant": "a test fixes one sequence of changes and one view; the claim relates every view to every later history of its array", "anchors": ["strictpp/ArrayCommon/array_traits.hpp 91-106", "strictpp/slicearray_base1D.hpp 49, 156", "strictpp/slicearray_base2D.hpp 46, 198", "strictpp/attach2D.hpp 165, 210", "strictpp/iterator.hpp 222-223, 340-353"]}
{"id": "C74", "title": "What is read from an arbitrary text", "statement": "For every text, operator>> on numbers and arrays is determined by cutting the text into tokens: white space is skipped, a token is the longest sequence of characters that can be continued to a number, its value is the integer (in the range of the type; for unsigned types modulo 2^bits), the boolean 0 or 1, or the nearest floating-point number, and reading stops at the first token without a value. If the end of the text is reached by then, the array receives exactly the values of the tokens; otherwise the error is reported and the array is unchanged, unless checks are silent. Every text has exactly one such reading. Matrices are read line by line in the same way.", "quantifier": "all texts, all integer types, all floating-point formats, all build configurations", "why_tests_cant": "the set of texts is infinite; tests cover well-formed samples and a few malformed ones", "anchors": ["strictpp/array_IO.hpp 107-126, 129-197, 348-366", "strictpp/StrictCommon/strict_IO.hpp 180-187"]}
{"id": "C75", "title": "Printed arrays are laid out in columns", "statement": "operator<< and the print functions write the optional name on a line of its own, then the elements. In matrices of integers and booleans all fields have one width, the widest value having a blank before its sign, whatever the values (below 10^13 the width is exactly that); in the detailed style every field is preceded by its indices and columns stay aligned for up to 10^13 rows, as do the values of a detailed one-dimensional array. Matrices of finite floating-point numbers in fixed format are aligned unless the number of largest magnitude is rounded up to a power of ten, which never happens with the default precisions; in scientific format they are aligned while exponents have two digits, always for float. Alignment fails otherwise, and matrices holding an infinity (fixed format) or the smallest value of a signed type are undefined to print. What is printed without name and details is read back as the same array; detailed output is rejected by operator>>.", "quantifier": "all matrices and arrays, all integer types, all floating-point formats and precisions, all names, every std::log10 within its contract", "why_tests_cant": "widths depend on the logarithm of the largest value at each power of ten, and on the rounding of every value; tests compare a few outputs", "anchors": ["strictpp/array_IO.hpp 64-97, 199-325", "strictpp/StrictCommon/strict_IO.hpp 190-216"]}
{"id": "C76", "title": "Lazy expressions kept in variables, and assignments that read their target", "statement": "An expression kept in a variable refers to the arrays it names: reading it gives the values of the arrays at that moment. As long as these arrays keep their sizes it behaves as the same expression written at the place of use; its size follows its left operand, and reading it where another operand has become shorter is undefined even with all checks on. Assigning an expression to an array or view gives the target the values the expression had before, provided no element is needed after it was overwritten: always when the expression has no views of the target, e.g. A = f(A) + B, where it equals A.resize_and_assign, and for slices moved towards the front, but not for A = A(reverse) or slices moved towards the back. A(...) op= x is A(...) = A(...) op x, in results, failures and undefinedness, also when x reads A.", "quantifier": "all programs of array operations, expressions of any shape and depth, views, assignments; all element types and operations (which may fail); all build configurations", "why_tests_cant": "programs and expressions are unbounded in size; aliasing errors appear only for particular overlaps of source and target, undefined reads often go unnoticed", "anchors": ["strictpp/ArrayCommon/array_traits.hpp 91-106", "strictpp/Expr/types.hpp 28-148", "strictpp/Expr/binary.hpp 437-712", "strictpp/array_base1D.hpp 209-309", "strictpp/slicearray_base1D.hpp 86-174", "strictpp/derived_base.hpp 129-207"]}
{"id": "C77", "title": "Programs on arrays of several element types and dimensions", "statement": "A program of assignments, compound assignments, constructions, resize_and_assign, element accesses, sums and comparisons over one- and two-dimensional arrays of bool, integers and floating point that compiles never applies an operation to values of types it is not defined for: every array and scalar keeps its declared type, an expression without array_cast has the element type and dimension of every array it names, and the only errors are reported checks, failed assertions and lack of memory. With checks, a program without move assignments ends normally exactly if each statement is meaningful element by element, with exactly that result; a meaningful program has the same result in every build. Operands of different sizes are reported before anything is changed. Arrays that are not assigned to keep their values, and only resize_and_assign and move assignment change sizes, also when the program fails. With checks, programs on bool, unsigned and floating-point arrays without casts, shifts and moves have no undefined behaviour. (Not without checks, not with 2D move assignments, not with signed elements: witnesses.)", "quantifier": "all programs and expressions of any length and depth, all array sizes and values, all element types, all build configurations", "why_tests_cant": "programs, expressions and sizes are unbounded; that something does not compile, or can never be stuck or undefined, is a statement about all programs", "anchors": ["strictpp/Expr/unary.hpp 103-344", "strictpp/Expr/binary.hpp 93-712", "strictpp/Expr/types.hpp 28-184", "strictpp/Expr/functors.hpp 14-300", "strictpp/derived_base.hpp 56-207", "strictpp/array_base1D.hpp 196-318", "strictpp/array_base2D.hpp 191-300", "strictpp/ArrayCommon/array_auxiliary.hpp 30-77"]}
{"id": "C78", "title": "Streams, the console, files and formats", "statement": "os << A writes the text of C75 for every array and expression, and changes of the stream only its text and the flags its numbers need, which stay set; a std::vector of indices prints like an array of them. print and printn write the same text to the console, several objects separated (printn: followed) by blank lines, and leave every flag of the console as it was. When an element cannot be computed print writes nothing of that object. print_to_file makes the file's contents exactly that text and touches no other file; a file written without a name and without details is read back by read_from_file as the same array, for integers, and for floating point when the precision suffices (the initial formats suffice for double). Paths that cannot be opened are reported and change nothing. Formats are set for exactly the types named. (Not: << leaves later plain output unchanged; a failing print_to_file keeps the old contents; float and long double survive the initial formats; a precision above the largest int is reported; without exceptions and assert an unreadable file leaves the array alone: witnesses.)", "quantifier": "all arrays and expressions, sizes, element types and values, names, formats, states of the console and of the files, all build configurations", "why_tests_cant": "texts depend on all sizes, values and formats; that nothing else changes is a statement about every stream state and every other file; the failing cases depend on which element fails and on the build", "anchors": ["strictpp/StrictCommon/strict_IO.hpp 78-222", "strictpp/StrictCommon/strict_IO.hpp 267-290", "strictpp/array_IO.hpp 64-97", "strictpp/array_IO.hpp 228-423"]}
{"id": "C79", "title": "Reading and printing numbers of quadruple precision", "statement": "is >> x for quadruple precision reads a word up to white space and accepts exactly the texts of numbers: decimal and hexadecimal with optional sign, fraction and exponent, inf, infinity and nan in any case; x is the value of the text rounded to nearest, an infinity if out of range. Any other word is reported in every build that reports. Reading an array consumes all words and replaces the array, or reports and leaves it unchanged. os << x writes the sign and x rounded to the precision of the format in capital letters, padded on the right, and no more than 127 characters; with 35 to 118 digits in scientific format every number, infinity and NaN is read back as itself, alone, in arrays in rows and columns, and in files. (Not: the end of the input is reported; longer texts are printed whole; the initial precision suffices: witnesses.)", "quantifier": "all texts, numbers including infinities and NaN, arrays and sizes, formats, stream states, all build configurations", "why_tests_cant": "infinitely many texts and 2^128 numbers; that exactly the texts of numbers are accepted and that every number survives are statements about all of them; truncation shows only for long texts", "anchors": ["strictpp/StrictCommon/strict_IO.hpp 219-263", "strictpp/array_IO.hpp 107-126", "strictpp/array_IO.hpp 228-264", "strictpp/array_IO.hpp 348-374"]}
{"id": "C80", "title": "Scalar functions on floating-point numbers", "statement": "signs is -1, 0 or 1 (0 for NaN); abss is the absolute value; mins and maxs return one of two numbers, not above (below) either; invs, sqrts and squares are the exact results rounded to nearest, with IEEE results for zeros, infinities, NaN and overflow; cubes is two roundings; floors and ceils are the exact floor and ceiling with the sign kept; exactly one of isnans, isinfs, isfinites holds. clamps returns the nearest number in [low, high] and reports reversed bounds and NaN; in_open and in_closed decide membership. fast_pows_int(x, p) with no over- and underflow is within (1+u)^(p-1)-1 of x^p relatively (u the unit roundoff) although it multiplies only O(log p) times, and for negative p within (1+u)/(1-u)^(n-1)-1 of x^-n. (Not: abss(0) is +0; mins and maxs are symmetric; a negative power within range is found: witnesses.)", "quantifier": "all formats (precision, exponent range), all numbers including zeros of both signs, infinities and NaN, all exponents, all build configurations", "why_tests_cant": "2^64 doubles and exponents each; the error bound of a power is a statement about all of them, special values are where tests are thin", "anchors": ["strictpp/StrictCommon/strict_math.hpp 19-48", "strictpp/StrictCommon/strict_math.hpp 180-264", "strictpp/StrictCommon/strict_val_ops.hpp 45-116"]}
{"id": "C81", "title": "Memory of owning arrays", "statement": "Every block obtained with operator new[] by an owning one-dimensional array belongs to exactly one array; all reads and writes of any sequence of constructions, assignments, moves, swaps, resizes, insertions, removals and element accesses are inside live blocks; a block is freed exactly once, by the operator delete[] that matches its operator new[], when its array is replaced, emptied or goes out of scope. When a source throws at some element, an allocation fails or a check throws, the temporary is freed, and the memory is what it was before; an assignment in place keeps its block. When all arrays go out of scope nothing is live.", "quantifier": "all element types, alignments, build configurations, programs over any number of arrays, sources that throw at any element or read the array being changed", "why_tests_cant": "leaks, double frees and use after free show only under a sanitizer and only on the paths taken; exceptions can come from every allocation and element", "anchors": ["strictpp/array_base1D.hpp 125-286", "strictpp/array_base1D.hpp 289-460", "strictpp/ArrayCommon/alignment.hpp 16-20", "strictpp/ArrayCommon/algorithm.hpp 61-154"]}
{"id": "C82", "title": "Rounding errors of plain and semi-stable reductions", "statement": "If the result is finite, dot_prod, matvec_prod, mean, norm1, norm1_scaled, norm2, norm2_scaled, prod and polynomial of floating-point arrays differ from the exact value by at most (1+u)^k - 1 (k roundings per element or degree) times the sum of the absolute values of the terms, plus a multiple of half the smallest positive number for products and quotients that underflow. semi_stable_sum and semi_stable_dot_prod have a bound of about 66 u whatever the length, up to a term of order (n u / 64)^2. Sums and dot products of whole numbers are exact while the absolute values add up to at most 2^prec. semi_stable_dot_prod is the dot product over exact arithmetic, reports different sizes and returns the default for empty arrays. The error of the plain sum grows with the length.", "quantifier": "all precisions and exponent ranges, all arrays and expressions, all element values, all build configurations", "why_tests_cant": "an error bound holds for all inputs of all lengths; tests compare a few sums with a tolerance", "anchors": ["strictpp/array_ops.hpp 312-344", "strictpp/array_ops.hpp 468-524", "strictpp/array_ops.hpp 550-561", "strictpp/array_stable_ops.hpp 117-144", "strictpp/array_stable_ops.hpp 202-211"]}
{"id": "C83", "title": "Matrix products and maps of the Eigen bridge", "statement": "eigen::map(A) gives access to exactly the elements of A, at the same indices, and promises Eigen only an alignment that the array has. matrix_prod(A, B) and matrix_prod(A, B, C) deliver the matrix product, whatever the order in which Eigen accumulates the terms of a coefficient: exactly over exact arithmetic, modulo 2^bits for unsigned integers, exactly for signed integers whose products do not add up to too much in absolute value, within ((1+u)^n - 1) times the sum of the absolute products (plus n times half the smallest positive number, scaled) for floating-point numbers, exactly for small whole numbers. The destination may be one of the factors; no other array changes. Dimensions that do not match are reported with nothing changed if checks are enabled, else they meet Eigen's assertion or are undefined. The floating-point product does depend on the order.", "quantifier": "all dimensions, all element values, all orders and associations of accumulation with or without fused multiplications, all aliasing of the three arrays, all build configurations", "why_tests_cant": "the order of accumulation depends on sizes and processor; a test sees one order, a few shapes and rarely the aliased destination", "anchors": ["strictpp/Eigen/map.hpp 19-39", "strictpp/Eigen/map.hpp 58-78", "strictpp/Eigen/matrix_ops.hpp 15-33", "strictpp/array_base2D.hpp 707-720", "strictpp/ArrayCommon/alignment.hpp 10-20"]}
{"id": "C84", "title": "Memory of owning two-dimensional arrays", "statement": "All reads and writes of any sequence of constructions, assignments, moves, swaps, resizes, insertions, removals and element accesses of owning two-dimensional arrays are inside live blocks, unless the operation is undefined already as a function on matrices; every block belongs to exactly one array and is freed exactly once, by the operator delete[] that matches its operator new[]. Sizes that are rejected after the elements have been allocated, a nested list of the wrong shape, a source that throws at some element, and a failed allocation all give back what was allocated and leave the memory as it was; a resize to the same number of elements keeps the block; an assignment in place that throws midway keeps the block with the elements assigned so far. When all arrays go out of scope nothing is live.", "quantifier": "all element types, alignments, build configurations, programs over any number of arrays, sources that throw at any element or read the array being changed", "why_tests_cant": "leaks, double frees and use after free show only under a sanitizer and only on the paths taken; the constructor allocates before it checks, so every failing check is a different path", "anchors": ["strictpp/array_base2D.hpp 152-299", "strictpp/array_base2D.hpp 303-646", "strictpp/array_base2D.hpp 650-692", "strictpp/array_base1D.hpp 125-301"]}
{"id": "C85", "title": "Any algorithm runs on the library's iterators as on plain pointers", "statement": "An algorithm that uses its iterators only through the operations of random access iterators, and would be valid on plain pointers into arrays that share no elements, gives the same result and stores the same values when it is run on begin/end or rbegin/rend of arrays, views and slices, in every configuration; nothing outside the ranges it writes is changed. In checked builds an element outside its range and positions of different objects that are compared or subtracted are reported, and what was stored before stays. Iterators of owning arrays give the address data() + i of element i; std::to_address(end()) is data() + size() in unchecked builds only (finding).", "quantifier": "all algorithms (programs deciding on everything they read and compare), any number of ranges, element types, storages, views of any depth, forward and reverse, build configurations", "why_tests_cant": "the standard library has dozens of algorithms with several implementations each, and a user's own are not known; tests run a few of them on a few arrays", "anchors": ["strictpp/iterator.hpp 162-406", "strictpp/iterator.hpp 411-652", "strictpp/derived1D.hpp 103-157", "strictpp/array_base1D.hpp 471-492"]}
{"id": "C86", "title": "Floating-point grids: sequence and linspace", "statement": "A sequence of floating-point numbers with finite start and increment begins with the start; if an element is finite then so are all before it and they are in order (never decreasing for an increment >= 0, never increasing for one <= 0); element i differs from start + i incr by at most u |start + i incr| + (1+u)(u i |incr| + tiny), so errors do not accumulate; whole numbers up to 2^prec are exact. linspace of at least two points with a finite last element has only finite elements, begins with the start and goes monotonically in the direction of the end; element i differs from the ideal grid by at most u |t| + ((1+u)^4 - (1+u)) i/(n-1) |end - start| plus multiples of tiny; for whole end points whose distance is a multiple of n - 1 it is exact. If end - start overflows, no element is finite. The last element need not be the end, may lie beyond it, elements may coincide, and finite end points may give NaN (findings).", "quantifier": "all precisions and exponent ranges, all start points, increments, end points and sizes, all build configurations", "why_tests_cant": "the rounding of each element depends on all arguments; tests compare a few grids with a tolerance and miss the sizes at which the end is missed or exceeded", "anchors": ["strictpp/Expr/special.hpp 419-444", "strictpp/Expr/types.hpp 189-220"]}
{"id": "C87", "title": "Pointers from data() stay with the elements", "statement": "data() and blas_data() of an owning array are null exactly when the array is empty; otherwise p[i] is element i (for a matrix p[i*cols + j] is element (i, j)), writing p[i] does what A[i] = v does and changes no other array, and different arrays never have the same pointer. A pointer kept while the program goes on stays valid through assignments, element access, failed operations and operations on other arrays, and follows the elements through move construction, move assignment, resize_and_assign of a temporary and swap; it is dangling after an insertion, removal or resize to another size of its array, also when the size ends up the same. For matrices likewise, except that resize(m, n, false) to a shape with as many elements keeps the pointer and the assignment of a nested list does not.", "quantifier": "all programs before and after the pointer is taken, all element types, arrays, sizes, indexes, build configurations", "why_tests_cant": "a pointer that dangles usually still reads the old values, and which of the operations of a program reallocate cannot be told from its results", "anchors": ["strictpp/array_base1D.hpp 483-510", "strictpp/array_base2D.hpp 707-732", "strictpp/array_base1D.hpp 125-460", "strictpp/array_base2D.hpp 152-692"]}
{"id": "C88", "title": "Copies for C functions, comparison with lists, size in bytes", "statement": "blas_array of any expression of real numbers is null exactly when there are no elements and otherwise a new block with the elements in order; the first element that cannot be evaluated, or lack of memory, ends it. equal(A, list) and equal(list, A) hold exactly when sizes agree and every element equals its counterpart; different sizes are not an error, a ragged nested list is reported in checked builds. bytes() is the number of elements times their size; kbytes(), mbytes() and gbytes() are that number rounded once to a double and divided exactly by a power of 1024, so they are exact up to 2^53 bytes.", "quantifier": "all expressions, element types, equality functions, lists and nested lists, sizes, build configurations", "why_tests_cant": "tests copy and compare a few small arrays; rounding of the sizes only shows for arrays larger than any test can allocate", "anchors": ["strictpp/array_ops.hpp 764-777", "strictpp/derived1D.hpp 386-423", "strictpp/derived2D.hpp 757-794"]}
{"id": "C89", "title": "Matrix expressions that read their target, and kept matrix expressions", "statement": "A = x for a two-dimensional expression x of the same shape replaces the elements of A row by row, each by the value x has at that moment; if A is nowhere transposed in x the result is the matrix x was before, otherwise elements already replaced are read: A = transpose(A) mirrors the lower triangle of a square matrix and is the transpose only if A was symmetric, and A += transpose(A) uses changed elements below the diagonal. A.resize_and_assign(x) and construction from x always give the matrix x was. A op= x is A = A op x. Different shapes are reported in checked builds and change nothing. A failing element leaves the elements before it replaced. A matrix expression kept in a variable equals the expression built later as long as the arrays it names keep their shapes; a transpose kept across a change of shape keeps its old dimensions and reads wrong elements or beyond the end in every build.", "quantifier": "all matrices, expressions of any depth over arrays, transposes, element-wise operators, scalars and owned expressions, element types, failing operators, sequences of operations between building and use, build configurations", "why_tests_cant": "tests assign transposes only to other arrays and use expressions where they are written; the aliasing result depends on every element and on the order of the loops", "anchors": ["strictpp/Expr/special.hpp 513-518", "strictpp/Expr/types.hpp 224-267", "strictpp/array_base2D.hpp 190-194, 229-234, 286-291", "strictpp/derived_base.hpp 129-207"]}
{"id": "C90", "title": "Vectors assigned from any expression that reads them", "statement": "x = e for a one-dimensional expression e of the size of x, in which x may occur anywhere (inside merges, exclusions, views, reductions of matrices made from it, matrix-vector products), replaces the elements of x from the first on, each by the value its element of e has at that moment; no other result is possible. If no element of e reads x before its own place, in particular if e consists of element-wise operators, x becomes the vector e was. Otherwise replaced elements are read: x = matvec_prod(A, x) is not the product but meets new elements before the row number and old ones from it on, and x = merge(y, x without its last element) repeats y. x.resize_and_assign(e) always gives the vector e was. x op= e is x = x op e in results, failures and undefinedness. Violated conditions inside e and different sizes are reported in checked builds and change nothing; a failing element leaves the elements before it replaced.", "quantifier": "all vectors, expressions of any depth and kind, element types, failing operators, build configurations", "why_tests_cant": "tests use a vector on both sides only in element-wise form; what an aliased assignment leaves depends on the dependence of every element on every other and on the order of the loop", "anchors": ["strictpp/array_base1D.hpp 252-257, 304-309", "strictpp/derived_base.hpp 129-207", "strictpp/Expr/binary.hpp 715-728", "strictpp/Expr/special.hpp 550-561"]}
{"id": "C91", "title": "Matrices assigned from any expression that reads them", "statement": "A = e for a two-dimensional expression e of the shape of A, in which A may occur anywhere (inside views, tensor products of its rows and columns, merges, broadcasts, transposes), replaces the elements of A row by row, each by the value e has there at that moment; no other result is possible. If no element of e reads A before its own place, A becomes the matrix e was. Otherwise replaced elements are read: A -= tensor_prod(A.col(p), A.row(q)) uses new elements of the column to its right and of the row below it, so it is not the rank-one update, and A = A.rows(reverse) copies the lower half over the upper half. A.resize_and_assign(e) always gives the matrix e was. A op= e is A = A op e in results, failures and undefinedness. Violated conditions inside e and different shapes are reported in checked builds and change nothing; a failing element leaves the elements before it replaced.", "quantifier": "all matrices, expressions of any depth and kind, element types, failing operators, rows and columns, build configurations", "why_tests_cant": "tests use a matrix on both sides only in element-wise form; what an aliased assignment leaves depends on the dependence of every element on every other and on the order of the loops", "anchors": ["strictpp/array_base2D.hpp 229-234, 286-291", "strictpp/derived_base.hpp 129-207", "strictpp/ArrayCommon/algorithm.hpp 26-31, 77-84", "strictpp/Expr/binary.hpp 731-735"]}
{"id": "C92", "title": "Views of an array assigned from any expression that reads the array", "statement": "A(w) = e and A(w) op= e, for a view A(w) of a vector or matrix A obtained by any chain of slices, rows, columns, diagonals, blocks and reshapes, and an expression e in which A and other views of A may occur anywhere: the elements of the view are replaced one after the other (by rows in two dimensions), each by the value its element of e has at that moment; only the places of the view change, and no other result is possible. If no value depends on a place already written and the view repeats no place, the view becomes what the right side was. In particular A.row(i) op= s * A.row(k) is the row operation, for i = k as well. Otherwise replaced elements are read: x(lastN(2)) = 10 * x(firstN(2)) and A.row(0) -= matvec_prod(A, A.row(0)) do not use the old values. Violated conditions inside e and different sizes are reported in checked builds and change nothing; a failing element leaves the elements before it replaced.", "quantifier": "all arrays, views, expressions of any depth and kind, element types, failing operators, build configurations", "why_tests_cant": "tests assign slices from a few disjoint or equal slices; the result for overlapping reads depends on every element's dependence on every place and on the order of the loop", "anchors": ["strictpp/slicearray_base1D.hpp 78-93", "strictpp/slicearray_base2D.hpp 88-104", "strictpp/derived_base.hpp 129-207", "strictpp/ArrayCommon/algorithm.hpp 26-31, 61-66, 77-84"]}
{"id": "C93", "title": "Operators that change scalars inside larger expressions", "statement": "For integer scalars changed by ++, --, =, op= anywhere inside expressions: if no operand of + - * / % & | ^ changes a variable the other operand uses, the value and the effect do not depend on the compiler's order of evaluation. If it fails in one order it succeeds in none. Only the variables named as targets change, also when a check fails on the way. x op= e evaluates e first and then applies op to x as it then is; it is x = x op e for every e without side effects, x itself included, and a failed check leaves x unchanged. ++x and x++ change x alike and x++ returns the old value; they are never checked, so beyond the range of a signed type they are undefined. x + x++ may have two values; x += x++ is 2x + 1 everywhere, which x = x + x++ need not be; (x += 1) = x leaves x + 1, since = refers to x, whereas op= copies its operand.", "quantifier": "all expressions of any depth, variables, values, orders of evaluation, integer types, build configurations", "why_tests_cant": "a test runs under one compiler's order of evaluation; independence of the order is a statement about all orders and all expressions", "anchors": ["strictpp/StrictCommon/strict_val.hpp 101-224, 382-451"]}
{"id": "C94", "title": "Timers measure the time since they were made or restarted", "statement": "In a program with any number of timers, wall_time() returns the seconds between the last restart() of that timer (its creation if there was none; for a copy, the start of its original) and now, whatever is done with this or other timers in between; restarting one timer does not affect others or copies. The result is finite, and for up to 2^53 nanoseconds (104 days) the double nearest to the quotient by 10^9; beyond that it is rounded twice. Longer differences are never reported as shorter, the sign is that of the difference, whole seconds (up to 9007199) are exact. wall_time() may be negative: the clock is that of the system, which may be set back.", "quantifier": "all programs of timers, all sequences of clock readings, all differences of 64 bits", "why_tests_cant": "readings of a real clock cannot be chosen by a test, least of all a clock that is set back or runs for months", "anchors": ["strictpp/Util/timer.hpp 30-47"]}
