# Formal model of strictpp: design

## Approach

The library is a header-only C++ array library with optional run-time checks.
The model is a shallow embedding in Gallina: each C++ function becomes a total
function returning `outcome A` (`Base/Outcome.v`):

* `Ok a` - normal return,
* `Fail f` - the library (or the runtime) reported an error; `f` says how:
  `Throw` (StrictException), `Abort` (assert), `Terminate` (exception leaving a
  `noexcept` function), `BadAlloc`,
* `UB` - undefined behaviour of C++ (signed overflow, out-of-bounds access,
  division by zero, ...).

A build configuration `cfg` records the macros that change behaviour:
`STRICT_DEBUG_OFF`, `STRICT_ERROR_EXCEPTIONS`, `NDEBUG`, and the largest number
of elements the allocator grants. Every theorem quantifies over `cfg`;
`checked c` says that a violated `ASSERT_STRICT_DEBUG` stops the operation, and
`report c` is the way it is then reported.

`index_t` (= `Strict<long>`) is modelled by `Z` with operations returning `UB`
outside the 64-bit range. Array storage is a list; reading or writing outside
it is `UB`. Functions that update an object in place return `mut S`, which also
carries the state left behind by a failure, so that statements about failed
operations are possible. No operation is totalised with a default value.

Elements: the array model is polymorphic in the element type; operators on
elements are functions to `outcome`, instantiated with the integer operators of
`Model/IntModel.v` (which may be undefined) or with Flocq floats
(`Model/FloatModel.v`, `binary_float prec emax`, generic in the format, with
infinities, NaN and signed zero). Statements "over exact arithmetic" quantify
over rings and fields (Section variables, discharged into quantifiers).

Layout of `rocq/theories`:

* `Base/` - outcome monad, list library (no model content),
* `Model/` - model of the code, one file per header group, every definition
  cites file and lines,
* `Spec/` - the independent specifications used in statements,
* `Proofs/` - lemmas,
* `Properties/` - one theorem block per property with `Print Assumptions`, and
  an `Example` beside it showing that the hypotheses are met by a concrete case.

Theorem shape: a valid call returns the specified result in *every*
configuration; an invalid call gives `Fail (report c)` when `checked c = true`;
arguments for which validation itself is undefined are excluded by an explicit
hypothesis (`idx_fits`, `no_overflow`, ...), and the excluded cases are shown to
be `UB` by theorems of their own (for instance `C21_last_overflow`,
`C26_remove_overflow`). Where the natural reading of a property is false, the
property is stated as an exact characterisation of what the code does, and the
natural claim is refuted by a theorem with suffix `_refuted`.

## Properties, models and proofs

| property | model | how it is proved |
|---|---|---|
| C01-C03 | `IntModel`: operators of Strict integers, int/long/unsigned/unsigned long | case analysis on type and operator, `lia`, division lemmas |
| C04 | `ScalarOps`: square-and-multiply loop | invariant res*x^p; overflow of a square implies overflow of the result |
| C05 | recursion as in the code | induction; 21! overflows, and so does everything above |
| C06 | loop | invariant prod = C(d1+f2-1, f2-1), divisibility |
| C07 | direct | `lia` |
| C08 | generic monoid | binary-expansion invariant |
| C09-C11 | `StableOps` over an abstract number type, `FloatModel` over Flocq | error-free transformations from Flocq's rounding theory; generic dual numbers for C11 |
| C12-C16, C57 | `StableOps`, `FloatModel` | induction over arrays carrying an exact real decomposition; rounding error bounds |
| C17-C23 | `Index`, `Slice` | affine maps, partition lemmas, composition of position lists, loop invariant of in-order copy |
| C24-C26 | `Array1D`, `Store1D` | refinement to lists of lists; induction over histories |
| C27-C32 | `Array2D`, `Store2D` | refinement to matrices (lists of rows); induction over histories |
| C33-C34 | `View2D`: views of 1D/2D arrays nested to any depth | induction on the chain of views; a view denotes a list/matrix of storage positions |
| C35-C36 | `Iterator` | induction on iterator programs and loops |
| C37-C42 | `Expr`: expression trees (GADT `ex1`/`ex2`) and the functions building them | structural induction against a denotation on lists |
| C43-C48 | `Reduce` | fold lemmas, big-operator specifications in rings |
| C49-C50 | `SemiRandom` | residue invariants of the generator, non-termination for every fuel |
| C51-C52, C58 | `ArrayIO`: streams as token lists, and text with a model of num_get/getline | loop invariants, decimal printing/parsing round trip |
| C53 | `StableOps`, `FloatModel` | case analysis and rounding monotonicity |
| C54-C55 | `ViewAssign` | loop prefix invariants |
| C56 | all of the above | a relation between the outcomes of the same code under two configurations, proved for every function (`ConfigProofs`); in-storage access from the view theorems |
| C59 | `FixedArray`: fixed-size arrays and programs over them | exact refinement to lists of constant length in every configuration, induction over programs |
| C60 | `Attach`: raw memory as a list with a base position | reduction to the view theorems |
| C61 | `SortModel`: std::sort and std::shuffle as parameters with their contracts, applied to the positions of a view | induction on lists; uniqueness of sorted permutations; order embedding of floats |
| C63 | `FloatIO`: decimal conversion by integer arithmetic, num_get's automaton for floating types, on Flocq's formats | error of the printed digits against half an ulp, `round_N_le_midp`; induction over the text |
| C64 | `Random`: generators over an arbitrary engine state, distributions as parameters with their contract (`in_bounds`), fills through views, loops with fuel, expressions as (size, state) | induction over positions and draws; scatter lemmas of the view proofs |
| C65 | `Literals`: the literal operators on the value (or text) of the literal, evaluated at compile time: a failed check or undefined evaluation is a rejected program | integer arithmetic; monotonicity of rounding and inclusion of formats; induction over the text |
| C66 | `StableOps` (stable polynomials, stable_norm_lp and scaled), `Reduce` (norm_lp_scaled); real arithmetic `rnum`, std::pow a parameter that takes roots | value as a stable_dot_prod of the pairs of pow_prods, then C11 (exact), C57 (floats); convexity of x^p for the triangle inequality |
| C67 | same model over `fnum` (`FloatModel`, any precision and exponent range with prec + 3 <= emax) | loop of pow_prods unrolled to a closed form (`pow_value`); each two_prods exact without underflow; binomial expansion and telescoping of the local errors over the reals (`PowReal`), then rounding errors added (`FloatPow`), then the accuracy of stable_dot_prod (`FloatPowPoly`) |
| C68 | `Lifetimes`: types, value categories, deleted overloads, and the objects each result refers to; client programs with declarations, uses and blocks | case analysis over all functions for the guards; invariant: declared objects refer to named objects of the enclosing scopes only |
| C69 | `stable_mean`, `stable_norm1(_scaled)`, `stable_norm2(_scaled)` (`StableOps`) and the plain functions (`Reduce`) over `rnum` and `fnum`, square root correctly rounded | values from the exact sums of C12/C13; accuracy from C57 plus the rounding of the quotient (absolute underflow term) and of the square root (never underflows); a product that is not finite makes the running pair (p, s) end in NaN |
| C70 | `Scalars`: values of bool, the four integer types and the four floating formats; `cast` is static_cast, undefined where C++ says so; `tag`, `constant`, `array_cast` | integers by congruence, floats by Flocq's correctness theorems and `B2R_Bsign_inj`; witnesses for the refuted round trips by computation |
| C71 | `Scalars`: expressions, `typ` (what compiles) and `eval` (None where an operand would be converted implicitly); `Spec/ScalarSpec`: promotion, usual arithmetic conversions, the erased program | type soundness and simulation by induction over expressions |
| C72 | `StableOps` (abs_error, rel_error, max errors), `ErrorTools` (two dimensions, lists) over Flocq's formats | error analysis; distinct numbers are at least half an ulp apart, so the quotient never underflows; arrays through `norminf` |
| C73 | `Stale`: machines whose states hold views together with the owners (`Store1D`, `Store2D`); a stored view is the recipe applied to the array of the moment, with the sizes of its creation | simulation with `Spec/StaleSpec`, where views are lists of element numbers or coordinates, by induction over the program and over the chain of view operations |
| C74 | `ArrayIO.extract`, `FloatIO.fextract`, `bextract` (std::num_get and `while(is >> x)`), `read1_text`, `read2_text` | `Spec/ReadSpec`: longest viable tokens; the scanners are automata whose states determine exactly the prefixes of numbers; uniqueness of the cutting by induction |
| C75 | `Layout`: widths (count_digit, spacings, smart_spaces), names, detailed style, for any std::log10 | `Spec/LayoutSpec`: contract of log10, tables of fields; digits counted by a monotone logarithm that is exact at powers of ten; the texts agree with those of C58 and C63, which gives the round trips |
| C76 | `Lazy`: expression objects over the owners of `Store1D`; arrays by reference, all else by copy; statements that build, keep, read and assign them | simulation with `Spec/LazySpec`, where kept expressions are formulas over lists and an assignment stores value by value; consequences: deferred building (on the model directly), resized operands, assignment ahead of its reads, compound assignment |
| C77 | `Typed`: arrays with element types and sizes; `atyp`, `styp` (what compiles), `prep`, `step`, `run` (None where an operand would be converted implicitly) | type soundness by induction; `Spec/TypedSpec` gives the meaning element by element without loops or expression objects, and (`compiles`, `array`) rules saying which statements compile, proved equivalent to `styp` and `atyp`; loops are shown to store exactly these elements although the right side may read the target; absence of undefined behaviour by a second induction over expression objects |
| C78 | `Console`: stream state (showpos, showpoint, floatfield, precision, width, text), the formats, `operator<<` of arrays element by element, print/printn through a string stream, files as a partial map from paths to texts, which paths open is a parameter | `Spec/ConsoleSpec`: what is added to a stream, a console, a file; the loops write the texts of `Layout` by induction; round trips from C51, C58, C63, C75; failing elements by the first failure; witnesses for flags left set, lost contents, wrapped precisions. Not modelled: write errors after opening |
| C79 | `QuadIO`: `operator>>` for `Strict<__float128>` (a word up to white space, `strtoflt128`: decimal, hexadecimal, infinities, NaN in any case, the whole word must be used), `operator<<` (format strings, the buffer of 128 characters), 1D arrays and files of them | `Spec/QuadSpec`: the accepted texts as inductive definitions, the number being the text's value rounded; reading decides exactly these texts; printed digits from C63; the length by counting digits; round trips; witnesses for texts cut at 127 characters, 33 digits, reading at the end. Not modelled: the sign of NaN, 2D printing (calls `std::log10` on `__float128`) |
| C80 | `FloatMath`: `signs`, `floors`, `ceils`, `isnans`, `isinfs`, `isfinites`, `squares`, `cubes`, `clamps`, `in_open`, `in_closed`, `fast_pows_int` on IEEE numbers of any precision (Flocq); `abss`, `mins`, `maxs`, `invs` as in `StableOps`, `sqrts` as Flocq's correctly rounded root | Case analysis on the kind of number and Flocq's correctness theorems; powers: invariant of the loop that the two factors are x^a and x^b up to a-1 and b-1 roundings, no product leaving the normal range (`power_fits`).  Assumed: `std::sqrt`, `std::floor`, `std::ceil` are correctly rounded (IEEE 754) |
| C81 | `Heap`: the functions of array_base1D.hpp once more, on a heap of live and freed blocks with pointers, `operator new[]`/`delete[]`, and destructors run when an exception leaves a scope; reading, writing or freeing anything but a live block is undefined | Simulation: each function on the heap does what its function on values (`Array1D`) does, frees what it replaces, and on an exception restores the memory; invariant of programs: blocks are unshared and none leaks; composed with C25 |
| C82 | `Reduce` and `StableOps` instantiated with IEEE numbers of any precision (`FloatModel`) | Standard model of rounding: every operation adds a relative error u, products and quotients also half the smallest positive number; induction over the elements; blocks of 64 for the semi-stable sum, composed with the bound of C57 for `stable_sum`; whole numbers below 2^prec are in the format, so no operation rounds |
| C83 | `Eigen`: maps as views of an array's memory by address, the two overloads of `matrix_prod`, alignment; a coefficient is accumulated by an arbitrary tree (`sched`) of zeros, products, fused multiplications, additions and multiplications by one, in which every product occurs once | Induction over the tree for each arithmetic (ring, modular, bounded, IEEE); sums are invariant under permutation; the temporary is complete before the first write, which gives the result under aliasing |
| C84 | `Heap2D`: the functions of array_base2D.hpp on the heap of `Heap`; an array is its two sizes and the one-dimensional array `data1D_`; the constructor allocates before it checks and its member is destroyed when a check throws | Simulation of `Array2D` function by function, as for C81; the invariant of programs is that of C81 for the arrays `data1D_`, with the sizes beside it; composed with C28 |
| C85 | `Algo`: an algorithm is a tree of loads, stores, moves, differences and comparisons of numbered iterator variables, branching on every value obtained; `run` executes it with the operators of `Iterator` and with `std::reverse_iterator` over them, on one storage shared by all objects; `operator->` and `std::to_address` | Two reference semantics in `AlgoSpec`, plain pointers (anything the language does not allow is no claim) and checked positions; simulation by induction on the algorithm, with the layout of the ranges in the storage as invariant; C35 gives the ranges of all views |
| C86 | `x_seq` and `x_linspace` of `Expr` instantiated with IEEE numbers of any precision (`FloatModel`), conversions of the indices rounded | Rounding is monotone, so products and sums stay in order and between finite values; standard model of rounding for the four operations of an element (difference, quotient, product, sum; the difference and the sum without underflow term); whole numbers up to 2^prec are in the format |
| C87 | `Handoff.h_data`, `h2_data`, `raw_load`, `raw_store`: the pointer itself, used by code outside the library on the memory of C81 and C84; `PointerSpec.heir` and `heir2` say for each operation which array owns the elements afterwards | Each operation of `hstep1` keeps the object of every array, hands it over, or builds a block with a new address; freed addresses are never live again, so a pointer whose block lost its owner stays dangling; reading and writing by the representation of C81 and C84. Matrices the same way with `heir2` on the objects of C84 |
| C88 | `Handoff.blas_array`, `equal_list`, `equal_list2`, `bytes`, `kbytes`, `mbytes`, `gbytes` (doubles of `FloatModel`) | Loop up to the first failing element; C28 and C40 for the temporary array and the comparison; division by a power of two of a number that is 0 or at least 1 stays in the format |
| C89 | `Lazy2`: two-dimensional expression objects over the owners of `Store2D` (arrays by reference, operators and `transpose` by copy, with the dimensions stored when built), and `=`, `op=`, `resize_and_assign`, construction from them | The loop invariant `Lazy2Spec.swept`: every element already written has the value the expression had when its turn came, in the world with the elements before it replaced; A = transpose(A) and A op= transpose(A) solved from it; a kept expression depends on the owners only through the shapes at building and the elements at reading |
| C90 | `Self`: `x = e`, `x op= e`, `x.resize_and_assign(e)` for any expression of `Expr` in which x occurs; the expression is a function of the current contents of x | `SelfSpec.written1`: by induction on the expression its sizes and conditions do not depend on the contents; loop invariant `replaced` (element i has the value it had in the vector with the elements before i replaced), which determines the result; element-wise and forward-reading expressions and `x = matvec_prod(A, x)` solved from it |
| C91 | `Self`, second part: the same for matrices, `A = e`, `A op= e`, `A.resize_and_assign(e)` for any two-dimensional expression of `Expr` in which A occurs | The row-by-row loops are one loop over the linear order; then as C90 (`replaced2`); `A op= tensor_prod(A.col(p), A.row(q))` solved in general (`C91_rank_one`) |
| C92 | `Self`, third part: `A(w) = e`, `A(w) op= e` for views `A(w)` of one or two dimensions (`View2D`, `ViewAssign`), e any expression of `Expr` in which A occurs. Not included: e itself a temporary slice of the same type as `A(w)`, whose failures terminate (C55) | `Spec/SelfSpec` (`course`, `goes`): one place after the other gets a value depending on the storage as it then is; induction over the loop, determinism, values that depend on no place written before (`ahead`); row operations in general (`C92_row_operation`) |
| C93 | `InPlace`: expressions of integer scalars with `++`, `--`, `=`, `op=` at any depth, over a store of variables of one type; the compiler's order of evaluation is an arbitrary function of the place in the expression. Trusted: the language's rules of order as written at the head of the file, where copying a variable into the parameter of `op=` counts as evaluating the right operand. Not included: floating-point and `bool` scalars, elements of arrays as variables | induction over expressions and lvalues: two runs with different orders, from stores agreeing on the used variables, end with the same value and agreeing stores; counterexamples for operands that are not separate |
| C94 | `Timer`: programs that make, copy, restart and read timers; the clock is an arbitrary function of the number of calls of `now()`, in nanoseconds; differences are 64-bit integers, seconds are binary64 (Flocq). Not included: clocks of another resolution, the macro `STRICT_TIME` | induction over programs (starts are kept except by a restart of the same timer); rounding is monotone and exact on the integers up to 2^53 |
| C62 | `View2D` | induction over the chain of view operations: position lists stay free of repetitions |

Status: every property is proved; the theorem names are in `MANIFEST.json`.

## Coverage of the code

| header | modelled | not modelled |
|---|---|---|
| StrictCommon/config.hpp, error.hpp | the three assertion macros and their dependence on the build flags | the text of messages, STRICT_CONSTEXPR and inlining macros |
| StrictCommon/strict_val.hpp | operators on all types, explicit conversions, constants, what compiles in expressions (`Scalars`), side effects inside expressions of integers (`InPlace`) | `++`, compound assignment of floating-point scalars as statements of their own (their values are those of the operators), `std::float128` |
| StrictCommon/strict_val_ops.hpp, strict_math.hpp | signs, abss, mins, maxs, pows, fast_pows_int, factorial, binom_coeff, clamps, in_open/closed (integers and floating-point numbers), squares, cubes, sqrts, floors, ceils, isnans, isinfs, isfinites, invs, fmas, two_sums, two_prods, pow_prods | wrappers of transcendental std functions; sqrts, floors, ceils are IEEE's correctly rounded functions |
| StrictCommon/auxiliary_types.hpp, ArrayCommon/index_helper.hpp, valid.hpp | `last`, index helpers, all validity functions, complement_index_vector, implicit_vector_sequence | tags that only select overloads (All, Even, ...); Low, High, Start, ... (no conversion, no check) |
| slice.hpp | seqN, seq, placeholders, firstN/lastN/skipN, index vectors, complement | - |
| slicearray_base1D/2D.hpp, derived1D/2D.hpp, attach2D.hpp 109-290 (view2D) | views and their nesting, element access, assignment | overloads that differ only in constness; deleted overloads and lifetimes are in `Lifetimes` |
| fixed_array_base1D/2D.hpp | constructors, copy, move, assignment, swap, element access | iterators and slices of fixed arrays (shared with dynamic arrays) |
| attach1D.hpp, attach2D.hpp (attach1D/attach2D over raw pointers) | memory as a list, pointers as positions | const versions (same but for types), pointer provenance |
| array_base1D.hpp, array_base2D.hpp | constructors, assignment, move, swap, resize, insert, remove in all variants | allocated addresses and their alignment (that `delete[]` matches `new[]` is in `Heap`), reuse of freed addresses; constructors from iterators are modelled for list ranges |
| derived_base.hpp, ArrayCommon/algorithm.hpp | compound assignment, fill, copy loops | `__restrict` and vectorisation |
| iterator.hpp | random-access iterators over elements, rows, columns; reverse iterators; operator->; IndexRange2D | iterator traits |
| Expr/*.hpp | all unary/binary/scalar nodes, generators, merge, exclude, transpose, broadcast, tensor, row/column reductions, matvec, random nodes | value categories and lifetimes are in `Lifetimes` |
| array_ops.hpp | reductions, searches, norms, polynomials, selections, for_each, sort, shuffle | - |
| array_stable_ops.hpp, Util/error_tools.hpp | stable sum/prod/dot/norms/polynomials, tolerances, errors | - |
| Util/semi_random.hpp | generator and functions on integers and floats, not0 variants, expressions | clock value is a parameter |
| array_IO.hpp, StrictCommon/strict_IO.hpp | reading and printing of numbers and of 1D/2D arrays of bool, integers, floats as text, to streams, the console and files; formats | printing of random expressions and of 2D arrays of quadruple precision, errors of the file system after opening |
| Util/random.hpp | rands, random, random_not0 for all types, the random expressions, copies of them | the engine and the distributions (parameters); not modelled: uniformity |
| StrictCommon/strict_literals.hpp | all literals | the lexer of C++ (values of hexadecimal, octal, binary literals, digit separators before the operator is called), hexadecimal `_sq` |
| Eigen/* | map, eigen_align, matrix_prod (C83) | CopyConstTo (const only); Eigen itself: of it the model has what its documentation promises (a Map views foreign memory, = evaluates a product into a temporary, sizes are checked by eigen_assert), with every order of accumulation admitted; fixed-size dimensions that Eigen rejects at compile time |
| Util/timer.hpp | the class `timer` (`Timer`, C94), the clock a parameter | the macro `STRICT_TIME`, whose argument cannot name variables `t` or `stream` of the caller |

Lifetimes (`Lifetimes`, C68): value categories, the deleted overloads and what each result refers to; overload resolution is the
rule that a viable deleted overload wins. Stored views and iterators of arrays that are resized, moved, swapped or
assigned are modelled in `Stale` (C73); stored one-dimensional expressions over such arrays in `Lazy`
(C76), two-dimensional ones in `Lazy2` (C89; of `transpose`, owned parts and element-wise operators, not of views); references to
single elements are followed as pointers (C87), lifetime extension is not modelled.

Not modelled: the rest of compile-time dispatch (concepts and overload resolution outside scalars, C71, arrays and expressions over them, C77, and lifetimes, C68), the source of Eigen,
the entries of the right-hand column above, and standard library internals
(`std::sort`, iostream number parsing) which are taken by their documented
contracts.

## Trusted base

* Coq 8.16.1's kernel, `coqc`, and the virtual machine (`vm_compute`).
* The correspondence between the C++ text and the Gallina definitions, which is
  by inspection; each definition cites its lines.
* The meaning given to the C++ language: LP64 widths, two's complement, signed
  overflow undefined, evaluation order as written, IEEE arithmetic in round to
  nearest without extended precision or contraction (the code's FMA is an
  explicit `fma`).
* Decimal floating-point literals are rounded correctly to long double (64 digits) by the compiler, `strtoflt128` rounds
  correctly, and a conversion out of range in a constant evaluation is rejected.
* The model of `std::istream` number extraction and `getline` in
  `Model/ArrayIO.v` (documented behaviour of `num_get` in the "C" locale), and correctly rounded
  conversion between binary and decimal (`Model/FloatIO.v`), as glibc guarantees.
* `std::log10` is monotone, exact at powers of ten that are numbers of the format, and within two units in the last place
  (`log10_contract`, a hypothesis of the theorems of C75; `C75_contract` shows that it can be met).
* The requirements of the standard's distributions on their bounds (`pre_int`, `pre_real` in `Model/Random.v`; the latter
  takes high - low rounded).  That their numbers lie between the bounds is a hypothesis of the theorems (`in_bounds`).
* Axioms, as listed by `Print Assumptions` after each theorem. Theorems outside
  the floating-point files are closed under the global context. Theorems about
  Flocq floats use, all from the standard library:
  `ClassicalDedekindReals.sig_not_dec`, `ClassicalDedekindReals.sig_forall_dec`,
  `FunctionalExtensionality.functional_extensionality_dep`,
  `Classical_Prop.classic`. No other axiom is used and none is added.

## Findings

Behaviour of the code that a user would not expect, each established by a
theorem or an example of the property named, unless marked "by inspection".

Integers and indexes
* `binom_coeff` overflows although the result fits (C06); `factorial(n)` for
  n >= 21 is undefined (C05); shift widths and MIN / -1 are unchecked (C02, C03).
* `A[last + LONG_MAX]` is undefined even through `at()` (C21); validation of
  `seqN`, `skipN(LONG_MAX)` and `even` on the largest size overflows (C17, C19).
* `remove(pos, count)` and `remove_back(count)` overflow before rejecting (C26).

Arrays
* `resize(n, false)` with n equal to the size does not zero the array (C24); in
  two dimensions `resize(m, n, false)` with an equal product reinterprets old
  data (C29).
* `remove_row(last - k)`, `remove_col(last - k)` and `exclude(A, last - k)`
  ignore k (C30).
* Moving a 2D array onto itself breaks its shape (C31); a 2D move assignment
  between different shapes with NDEBUG leaves stale dimensions, and later
  accesses are undefined (C32).
* `Array2D(m, n)` multiplies before any check and allocates before checking
  signs (C29); `view2D` accepts negative x negative when unchecked (C34).
* `A = A(reverse)` mirrors half of the array (C23); `A += A(reverse)` sees
  updated elements, and a vector slice with a repeated index applies `op=`
  several times (C54).
* A failing element operation leaves a partly updated array (C37, C54); a size
  mismatch between slice temporaries terminates although exceptions are enabled
  (C55).
* Comparing two default-constructed iterators is reported (C35);
  `IndexRange2D(m, 0)` divides by zero when unchecked (C36).
* A mismatched 1D move assignment passes silently in a build with exceptions and
  NDEBUG but aborts in an asserting build (C56).
* A moved-from fixed array holds zeros, not its old values; without checks a
  shorter source overwrites only the beginning of a fixed array (C59).
* Assigning a nested list to a 2D array moves its elements although the sizes stay, so pointers from `data()` dangle; assigning a
  list to a 1D array does not (`C87_matrix_list_moves`, `C87_follow`).
* `attach1D(p, n)` with n larger than the memory passes every check (C60).
* Sorting an array that holds a NaN and two different numbers is undefined, as
  is sorting a view that names an element twice (C61).
* The default output formats of `float` and `long double` (7 and 19 digits after the
  point) do not identify the number: 1000 + 2^-14 as a float is printed as
  +1.0000001e+03 and read back as 1000 + 2^-13 (`C63_float_default_refuted`,
  `C63_long_double_default_refuted`).  For `double` the default (16) suffices; integers up to
  2^24 and 2^64 survive (`C63_float_integers`, `C63_long_double_integers`).
* In fixed format, printing a matrix with an infinity converts an infinite logarithm to
  `int` (`C63_fixed_infinity_undefined`).
* Infinities, NaN and `bool` values are printed in a form that `operator>>` rejects
  (`C63_special_not_read`, `C63_bool_not_read`).  A number out of range at the very end
  of the input is dropped silently (`C63_array_out_of_range_last_refuted`).
- `rands(low, high)` for floating-point types checks only low <= high; std::uniform_real_distribution also needs high - low
  not to overflow, so rands(-2^1023, 2^1023) is undefined even in checked builds (`C64_span_refuted`).  Bounds of
  __float128 are rounded to double, and the number may lie outside them (`C64_quad_refuted`).
- A random expression used twice in one expression gives the same numbers (`C64_copies`): E - E is zero.
- `semi_random(A, B)` fills arrays of one size with the same numbers (`C49_same_numbers`).
- Seen while reading, outside the model: `semi_random(n, low, high, seed)` (semi_random.hpp 397-400) has a template parameter U that
  cannot be deduced, and the overloads for `Size` and `Rows, Cols` pass `seed.get()` where only an explicit conversion to `Seed`
  exists (403-406, 415-418, 427-430, 439-442 and their not0 versions), so that using them does not compile.
* `4294967296_sui` is 0 in every build (`C65_sui_refuted`): unlike `_si` and `_sl`, `_sui` has no check.
* `_sd` and `_sf` round twice, first to long double: the literal 1 + 2^-53 + 2^-70 written out in decimal is 1 although
  1 + 2^-52 is nearer (`C65_real_nearest_refuted`).
* `01.5_sq` is reported as octal; `1'000_sq` is 1 (`C65_quad_decimal_refuted`, `C65_quad_separator_refuted`).
* With NDEBUG and assertions the literal checks are silent even though the operators are consteval, because
  `print_stacktrace` is constexpr (`C65_unchecked`).
* `stable_polynomial(coeffs, x)` with more than 2^31 coefficients reports an error on valid arguments: `sequence(Size{n}, Start{0}, Incr{1})` is a
  sequence of `int` and wraps to negative powers (`C66_polynomial_large`, `C66_polynomial_refuted`).
* "Compile-time prevention of dangling temporaries" (README) holds for programs built from the guarded functions (`C68_no_dangling`), not in
  general.  These compile and leave a dangling reference: `auto e = generate(Array1D<double>(n), f)` (no deleted overload),
  `pow_prod` (the deleted overload wants two floating operands, the second is an integer), `tensor_prod` with one lvalue operand (its
  deleted overload is constrained by a concept that is false for references), `Array1D<double>(n)({0, 1})` (the overload for lists of
  indexes lacks the requires clause the others have), `transpose` of a slice or expression that is a temporary (it captures `[&A]`):
  `C68_unguarded_one`, `C68_unguarded_two`, `C68_transpose` and their `_refuted` companions.
* `matvec_prod(A, x)` always reads a dead local: the closure returned captures the local lambda `dot` by reference (`C68_matvec`).  The lambda
  has no state, so compilers usually give the right result.
* `stable_norm2` squares without scaling: `[2^600]` gives NaN (plain `norm2` gives infinity) and `[2^-600]` gives 0, although both norms are
  representable (`C69_norm2_overflow_refuted`, `C69_norm2_underflow_refuted`); `stable_mean` of two elements 2^1023 is NaN
  (`C69_mean_overflow_refuted`).  Any product that is not finite turns `stable_dot_prod` and the two norms into NaN (`C69_dot_special`, `C69_norm2_special`).
* `&&` and `||` of two StrictBool evaluate both operands: `i != 0 && 10 / i > 1` fails (or is undefined) for i = 0 (`C71_short_circuit_refuted`).
  The library itself does not depend on it; clients must use `.val()` on the first operand.  `StrictBool && 5` compiles and converts the int
  (`C71_logic_converts_refuted`).
* A stored view refers to the array variable and follows it through swaps, moves and resizes, but keeps its sizes.  Once a position it
  needs is gone, using it is undefined and not reported, even with all checks on (`C73_checked_refuted`): the index is checked against
  the size of the view and the array is read with `un`.  After a change of the number of columns a stored row is no longer a row
  (`C73_row_refuted`), and a stored block reaches other rows (`C73_block_refuted`).
* A kept expression checks indices against the size of its left operand only: once another operand has been made shorter, reading it is
  undefined with all checks on (`C76_checked_refuted`).  Assignments have no alias check: `A = A(reverse)` gives [4, 3, 3, 4] for [1, 2, 3, 4]
  (`C76_snapshot_refuted`), while `A.resize_and_assign(A(reverse))` reverses.
* Type-correct programs with all checks on can still be undefined: a move assignment of other sizes to a two-dimensional array is only guarded
  by assert (`C77_move_refuted`), and sums of signed elements may overflow (`C77_signed_refuted`).  Without checks `A = B` with a shorter B
  silently keeps the rest of A (`C77_unchecked_refuted`).
* No explicit conversion is checked, in debug builds either: `Strict64{1e10}.si()` and NaN to integer are undefined, integers wrap silently
  (`C70_float_to_int_undefined`, `C70_int_modulo`).  `long` through `double` is not the identity and is undefined for LONG_MAX
  (`C70_long_double_refuted`, `C70_long_max_refuted`); conversions in two steps round twice (`C70_double_rounding_refuted`).

Floating point
* `stable_sum({inf})` is NaN (C16); the overflow corner of `two_sums` (C09).
* `min`, `max`, `norm_inf`, `max_abs_error` depend on the position of a NaN
  (C44); `within_tol_rel(NaN, 0)` is true (C53); `within_tol(inf, inf)` is false
  (C53).
* `linspace(1, ...)` is NaN (C40); `stable_prod({-0.0})` is +0
  (C14); `abss(+0.0)` is -0.0, so the error of a number against itself is -0.0 (`C72_negative_zero`).
* `rel_error(0, exact)` and `max_rel_error` with a zero approximation are empty although the
  relative error is 1 (`C72_zero_approx_refuted`); a NaN outside the first position
  disappears from `max_rel_error` (`C72_nan_hidden_refuted`).
* Reductions of empty arrays silently return defaults (`prod` gives 0, `all_of`
  gives false) (C45, C46).

Random numbers
* Draws of the generator are 5 modulo 8, and 53 modulo 128 from the third on:
  ranges of 2, 4 or 8 values give a constant, ranges of 16 to 128 eventually
  (C49). `semi_rands_not0` never returns on (-1, 0), (-1, 2), (-5, 2) (C50).
* Values of wide ranges never exceed low + 9999999 (C49).

Reading and printing
* A malformed or overflowing token at the end of the input is silently dropped
  (C51); a long row with debug checks off is written out of bounds before the
  always-on check (C52); printing a 2D array containing the smallest value
  overflows in `abs` (C58, `C75_integer_smallest`); printing one with an infinity in fixed format converts
  the infinite logarithm to int (`C75_fixed_infinity`); with a precision next to the largest int the width overflows
  (`C75_fixed_overflow`).
* Columns are out of place where the largest number is rounded up to a power of ten (`C75_fixed_carry_refuted`) and where
  exponents of two and three digits meet (`C75_scientific_mixed_refuted`).
* `std::cout << x` leaves showpos and the float format of the console set: a later `std::cout << 5` prints `+5`
  (`C78_flags_refuted`); `print` does not.
* `print_to_file` has emptied the file before the first element is computed: when an element fails the former contents
  are lost (`C78_file_kept_refuted`), while `print` leaves the console as it was (`C78_print_fails`).
* `precision(n)` with n above the largest int is taken modulo 2^32 (`C78_precision_refuted`).
* float and long double written with the initial formats and read back may differ (`C78_default_float_refuted`).
* With exceptions off and NDEBUG defined even the ALWAYS checks are silent: `print_to_file` returns with nothing written,
  `read_from_file` of a missing file empties the array (`C78_read_closed_silent`).
* `is >> x` for `Strict<__float128>` at the end of the input yields +0 without a report (`C79_end_refuted`), a word is
  looked at only up to a null character (`C79_null_refuted`).
* A `Strict<__float128>` is printed through a buffer of 128 characters and longer texts are cut: scientific format
  with 130 digits loses the exponent, 10 is read back as 1 (`C79_cut_refuted`); fixed format with the initial precision
  prints 2^430 as a number less than a thousandth of it (`C79_cut_fixed_refuted`).
* 33 digits, the initial precision, do not determine a `__float128` (`C79_default_refuted`); 35 to 118 do
  (`C79_roundtrip_35`).  A negative precision (`precision_quad` wraps, C78) makes the format string invalid
  (`C79_bad_precision`).
* However many times 2^-53 is added to 1.0 by `sum`, the result is 1.0 (`C82_plain_sum_refuted`): its error is not bounded
  independently of the length, unlike that of `semi_stable_sum`.
* `abss(+0.0)` is -0.0 and `invs` of it -inf (`C80_abss_refuted`); `mins` and `maxs` return the second argument if either is
  NaN and depend on the order for zeros of different sign (`C80_order_refuted`); `fast_pows_int(2.0, -1074)` is 0 although
  2^-1074 is a double, because 2^1074 overflows before the reciprocal is taken (`C80_power_refuted`).
* The product of two matrices of floating-point numbers through Eigen depends on the order of accumulation, which depends on the
  processor: [2^53, 1, -2^53] times ones is 0 or 1 (`C83_order_refuted`).  The bound of `C83_accuracy` holds for every order.
* Iterators of owning arrays are declared contiguous (and tests assert `std::contiguous_iterator`), but `operator->` checks
  the range, so in checked builds `std::to_address(a.end())`, which is noexcept, ends the program, and so does
  `std::span(a.begin(), a.end())` for an empty array (`C85_contiguous_end_refuted`).  Default-constructed iterators do not
  compare equal in checked builds, the comparison is reported (`C85_default_equal_refuted`).
* `linspace(50, 0.0, 1.0)` ends below 1 (`C86_end_reached_refuted`) and `linspace(8, 0.0, 29.0)` beyond 29
  (`C86_inside_refuted`), so a grid over the domain of a function can leave it; different end points may give equal
  neighbours (`C86_distinct_refuted`); `linspace(3, lowest, max)` starts with NaN (`C86_finite_refuted`).
* `A = transpose(A)` compiles and passes every check for square A but does not transpose: the assignment reads elements it
  has already replaced, so the lower triangle is mirrored into the upper one (`C89_transpose_refuted`, exact result
  `C89_transpose_self`).  `A += transpose(A)` is wrong below the diagonal (`C89_update_transpose`).
  `A.resize_and_assign(transpose(A))` and `Array2D B = transpose(A)` are right (`C89_fresh`).
* A kept `auto T = transpose(A)` keeps its dimensions when A is resized, and T(i, j) passes the index checks and reads
  another element or beyond the end, also in checked builds (`C89_stale_transpose`, `C89_stale_refuted`).
* `x = matvec_prod(A, x)` is accepted for a square matrix and does not multiply x by A: row i uses the elements before i that the
  assignment has already replaced, as in a Gauss-Seidel step (`C90_matvec_refuted`, exact result `C90_matvec`).
  `x = merge(y, exclude(x, last))` repeats y (`C90_merge_refuted`).  `x.resize_and_assign(...)` is right (`C90_resize`).
* `A -= tensor_prod(A.col(0), A.row(0))` (an elimination step) compiles, passes every check and is not the rank-one update: the
  first column and the first row are replaced before the rest reads them (`C91_rank_one_refuted`, exact result
  `C91_rank_one`).  `A = A.rows(reverse)` copies the lower half over the upper half (`C91_reverse_refuted`).
* `x(lastN(2)) = 10 * x(firstN(2))` and `A.row(0) -= matvec_prod(A, A.row(0))` read elements replaced a moment before
  (`C92_shift_refuted`, `C92_image_refuted`); row operations are safe (`C92_row_operation`).
- `x + x++` may have two values, `x += x++` is not `x = x + x++`, and `(x += 1) = x` does not restore x (`C93_order_refuted`,
  `C93_compound_refuted`, `C93_reference_refuted`); `++` and `--` are never checked for overflow (`C93_increment`).
- `timer::wall_time` may be negative: `start` is a time point of `system_clock`, which may be set back (`C94_negative_refuted`).

## Testing the theorems

`seeded/LOG.jsonl` records edits of the model (wrong boundary, missed case,
swapped argument, dropped update) made in a scratch copy, the claim each edit
breaks, and the theorems whose proofs then failed. Edits that broke no theorem
led to a new or stronger theorem, named in the entry.
