# Formal model of kiwaku in Rocq: design

Target: `/repo` (Nxirda/kiwaku, C++20 header-only multi-dimensional containers), read as text only.
All paths below are relative to `/repo/include/kwk`.

## 1. Approach

The library's run-time core (index arithmetic, nested loops, algorithms on containers, memory
ownership) is re-expressed function by function as total, computable Gallina functions. Every model
definition has a comment citing file and lines, and says where it simplifies.

Layers (`rocq/theories`), bottom to top:

| file | content |
|------|---------|
| `Outcome.v` | outcome monad `Ok / Abort (failed assertion) / UB / NoFuel`; build-mode flag `dbg` (assertions on/off); kumi folds. |
| `CInt.v` | C++ integer types (8..64 bits, signed/unsigned, LP64), wrap-around conversion, promotion, usual arithmetic conversions, checked arithmetic on typed values. Signed overflow and division by zero are the outcome `UB`. |
| `Spec.v`, `ShapeSpec.v` | the small independent specification: products, row-major rank, boxes, lexicographic order, dot product, legal shapes. Nothing from the model of shapes. |
| `Shape.v` | `shape` / `stride` on lists of typed values: numel, nbdims, contains, compress, ==, as_stride, linearize, linear_index, coordinates, conversions. |
| `Prefilled.v`, `PrefilledSpec.v` | `prefilled`: descriptors, storage layout, constructors, accessors, run-time `[]`, named axes, as_array, compatibility checks. |
| `NamedSize.v`, `NamedStride.v` (+ `Spec`) | `of_size` and `with_strides` with named extents and axes written with a content; strides of a shape with their axes. |
| `Literals.v`, `EndRatio.v` (+ `Spec`) | `_c` literals, clamp, shapes of C arrays and nested `std::array`; `end` expressions and `ratio`. |
| `ForEach.v` (+ `Spec`) | `for_each`, `for_until` as folds building nested loops with typed counters. |
| `Memory.v` | blocks, pointers, load/store with `UB` on null, out-of-bounds, freed or uninitialised memory. |
| `Container.v` (+ `Spec`) | accessors, containers, tables, views, copy/move/assign/swap, slicing, reverse/reshape/relabel. |
| `Source.v` (+ `Spec`) | data sources (ranges, C arrays, pointers), default construction of containers. |
| `Algo.v`, `Search.v` (+ `Spec`) | the algorithms, as programs over the memory; the binary searches. |
| `Sums.v` (+ `Spec`) | reductions, scans, comparisons and copies on elements of integer types. |
| `Context.v` (+ `Spec`) | evaluation contexts as arbitrary visiting orders; the overloads that take a context. |
| `Lifetime.v` (+ `Spec`) | elements of a class type: construction, assignment, destruction in `stack_block` and `heap_block`. |
| `Calls.v` (`CallSpec.v`) | the algorithms given callables with effects: a state threaded through the calls, calls that do not return. |
| `Slicer.v` (+ `Spec`) | slicers, sliced shapes and strides, origin, reachability trait. |
| `Alloc.v` (+ `Spec`) | `any_allocator`, and histories of heap tables with an event trace. |
| `Rights.v` (+ `Spec`) | const qualifications: which expressions can be assigned to. |
| `Mixed.v` (+ `Spec`) | interpolation with several floating-point types and int coordinates. |
| `Convert.v` (+ `Spec`) | tables of another element type than their source. |
| `Objects.v` (+ `Spec`) | the algorithms with function objects that have a state of their own. |
| `SliceText.v` (+ `Spec`) | stream insertion of constants, ratios, `end` expressions, slicers (utility/fixed.hpp, ratio.hpp, end.hpp, slicer.hpp) |
| `Settings.v` (+ `Spec`) | options of containers, `pick`, merged settings |
| `Names.v` (+ `Spec`) | names of axes under `==`, `compress` and conversions |
| `SliceKinds.v` (+ `Spec`) | what is known at compile time about a slice |
| `Program.v` (+ `Spec`) | programs: sequences of calls with loops and branches |
| `FloatSums.v` (+ `Spec`) | sums, inner products and scans of floating-point and mixed elements |
| `Throw.v` (+ `Spec`) | tables of static size whose elements' operations throw |
| `Stream.v` (+ `Spec`) | stream insertion in streams of any format, text of axes |
| `Threads.v` (+ `Spec`) | the algorithms and element access as sequences of accesses, several threads |
| `Position.v` (+ `Spec`) | positions: access, comparison, narrowing in `find_if` |
| `Overload.v` (+ `Spec`) | overload resolution on the overload sets of the algorithms |
| `Attribute.v` (+ `Spec`) | what `KWK_CONST` and `KWK_PURE` allow on the functions of shapes; all other files ignore attributes |
| `Instance.v` (+ `Spec`) | identities and states of the allocator objects behind heap tables |
| `FloatIota.v` | iota on arithmetic types |
| `FloatCompare.v` (+ `Spec`) | comparisons of arithmetic types in count, find, find_last, find_first_of, replace and bisection |
| `Assign.v` (+ `Spec`) | transform, copy, copy_if, fill, generate and replace_if between arithmetic types (elements of different types are in different allocations; memory seen as two types at once is not modelled) |
| `Extension.v` (+ `Spec`) | as_dimension, to_descriptor and tag_invoke for user types in shapes and strides (one user type per call; a descriptor is an axis or none with a content; as_dimension returns an integer; repeated axes are not rejected) |
| `Steps.v` (+ `Spec`) | for_each, for_until and the loop of the bisections with a counter of their tests or turns (work done by callables and within one test is not counted) |
| `Accesses.v` (+ `Spec`) | the accesses to elements of the algorithms as in `Threads.v`, one per use of a reference (copies made by callables, parameters and compilers are not counted) |
| `UserSlicer.v` (+ `Spec`) | `reindex`, `reshape`, `restride`, `origin` and `preserve_reachability` for types of the user (members pure, run-time integers as results) |
| `AnyFail.v` (+ `Spec`) | `any_allocator` with failing `new`, throwing constructors, `allocate` and `deallocate`. |
| `Ctor.v` (+ `Spec`) | constructors of shapes and strides of a given type from values and options. |
| `Bools.v` (+ `Spec`) | elements and values of type bool in the algorithms that compute or convert. |
| `ThreadTables.v` (+ `Spec`) | tables made, copied, assigned and destroyed by several threads |
| `Uses.v`, `Uses2.v` (+ `Spec`) | callables that read and write containers |
| `LoopUse.v` (+ `Spec`) | loops over coordinates whose callables read and write containers |
| `Exn.v` (+ `Spec`) | the algorithms with callables that throw. |
| `Fail.v` (+ `Spec`) | the same histories with failing allocations, deleters and element copies. |
| `Interp.v` (+ `Spec`) | interpolation, over any arithmetic: exact rationals, and IEEE formats of any precision (the standard library's `SpecFloat`). |
| `Label.v` | labels: metadata of containers, and what copies, moves, swaps and derived containers do with it. |
| `Output.v` (+ `Spec`) | stream insertion of shapes, positions and containers, as strings. |
| `ViewSpec.v` | vocabulary for algorithms run through views. |
| `*Facts*.v` | lemmas and proofs. |
| `Prop_*.v` | property theorems only: each closed by a lemma, with `Example`s showing the hypotheses are met and `Print Assumptions`. |

Style decisions
* Typed integers everywhere an index is computed: an index is a pair (C++ type, value), because
  several findings (narrow `contains`, unsigned `reverse`, numel truncation) depend on the types.
* A shape, where only its values matter, is a `list cint` (outermost axis first). Compile-time
  constants and run-time values behave alike there; which axes are compile-time matters in
  `Prefilled.v` (storage) and for the accessor/block selection, where it is modelled.
* `KIWAKU_ASSERT` aborts when `dbg = true` and is skipped when `dbg = false`
  (`detail/assert.hpp`). Theorems quantify over `dbg` unless they say otherwise.
* Element types are a type parameter; user callbacks passed to `transform`, `reduce`, predicates are
  pure total functions in `Algo.v` and `Search.v`; `Calls.v` has them with a state and with calls that do not
  return (C66, C67), and proves the two agree on callables without effects. Callbacks given to
  `for_each`/`for_until` are arbitrary state transformers.
* Pointer arithmetic is modelled on (block, offset) with the index converted to 64-bit signed
  `ptrdiff_t`; only dereferencing outside the block is `UB` (more generous than ISO C++).
* Loops use explicit fuel and return `NoFuel` when exhausted; theorems conclude `= Ok _`, so
  termination is part of them.

Legal shape (`legal`): every extent is non-negative, representable in its own type, and the product
of the non-zero extents (zeros counted as 1) is at most 2^31-1. This is the domain on which the
library's `int` arithmetic is exact; outside it counterexamples are proved. `addressable`, the
hypothesis on the containers of the algorithms, asks that the offsets fit (`reach_ok`: below 2^31; or
`far_ok`: strides of 64-bit types, offsets below 2^63), so that larger views are covered too (C99).

When the natural statement is false of the code, the property text says both what holds and how it
fails; the failure is a theorem with suffix `_refuted` giving a witness.

## 2. Properties

| id | modelled by | proof |
|----|-------------|-------|
| C01 | `as_stride`, `linearize`, `linear_index` on typed lists | induction on the shape: strides = suffix products; Horner form; all partial sums bounded by the product, so typed operations are exact |
| C02 | `coordinates`, `linear_index` | induction with div/mod facts on suffix products |
| C03 | `linear_index` | induction; lexicographic order as an inductive relation in `Spec.v` |
| C04 | typed arithmetic returning `UB` on overflow | corollary of exactness lemmas; two witnesses by computation |
| C05 | `contains` with the cast of extents to the coordinate's type | comparison lemma + witnesses |
| C06 | `numel` with final conversion to int | induction |
| C07 | `nbdims` | induction; witness for the trailing unit axis |
| C08 | `compress` | product/rank lemma for appended lists |
| C09 | `operator==` | via compress; merging axes twice is merging once, so transitive through enough axes; flat shapes show where it is not |
| C10 | `construct` for all-dynamic targets | via compress |
| C11 | `Prefilled.construct` | induction on descriptors with generalised storage offset |
| C12 | run-time `operator[]` of `prefilled` | the storage slot of an axis is the number of run-time axes before it; a storage marked with one 1 separates two slots |
| C13 | `map_descriptor` | induction with accumulator invariant |
| C14 | named construction, name lookup | permutation invariance of lookup under unique names |
| C15 | `as_array`, `largest_type` | range lemma; the fold is the leftmost of the widest types, so exact iff every extent fits it |
| C16 | `fit_constraints`, `is_compatible`, `is_similar`, `construct` | case analysis per axis, induction; witnesses |
| C17 | `clamp`, `b10`, `_c` | range analysis; induction on digits, modulo 2^64; separators and prefixes as digits of other values; witnesses |
| C18 | `array_traits` | induction on nesting; the reversed list of extents has the same product; witness |
| C19 | `extremum` operators | structural induction on expressions, exact rational semantics; unsigned constants modulo 2^32; chains of divisions by induction on the product |
| C20 | `ratio` operators, and calculations with several ratios | `field`-style proofs over Q; induction over the calculation for the denominators; unsigned members modulo 2^32 |
| C21 | `for_each` | refinement to the list of coordinates in lexicographic order |
| C22 | `for_until` | refinement to `find` on that list |
| C23 | accessor specialisations | all equal to the rank; rank bijection onto [0,numel) |
| C24 | strided accessors, table allocation | bound hypothesis; witness; tables with strides of their own by the offsets the strides reach |
| C25-C28, C31 | tables, views, blocks in `Memory.v` | Hoare-style lemmas on load/store/alloc with frame |
| C29 | life-cycle state machine over any number of tables | invariant by induction over operation histories |
| C30 | `any_allocator` state machine | same |
| C32-C40, C52 | algorithms as memory programs | loop invariant over the coordinate list; frame = all other cells; a missing element makes the whole call undefined (C34, C36-C38): the set of cells is the same at every step, so the coordinate is reached or the call failed before |
| C41-C42 | `find_*` via `for_until`; `reverse` | first/last hit in coordinate list; witnesses for strided, unsigned, double reverse; with any signed strides, the displacement of the reversal from the mirrored elements |
| C43 | bisection on typed ints with fuel | loop invariant; partition point; on any contents, the boundary kept at both ends of the interval |
| C44-C46 | slicers with typed arithmetic | ceil-division lemmas; origin + strides composition; witnesses |
| C47 | reachability trait on slicer kinds | soundness by offset formula; witnesses; contiguity of slices characterised by induction over the axes |
| C48-C49 | interpolation over exact rationals; binary64 for witnesses | induction on the order; witnesses by computation |
| C50 | stride default constructor | direct |
| C51, C53 | output as strings | refinement to a recursive layout; decimal text of integers is the standard library's |
| C54 | algorithms through slices, reversed and reshaped views | instances of C32-C42 with the hypotheses discharged for each kind of view; witnesses |
| C55 | sources and default construction | offsets of the copied elements; witnesses for short sources and long ranges |
| C56 | out-of-range indexes with and without assertions | exact condition of the abort; which element or block is reached otherwise |
| C57 | `of_size` with named extents | positional and named construction theorems of C11/C14 with the descriptors `to_descriptor` gives |
| C58 | `is_similar`, `is_compatible` on descriptors | characterised extent by extent; witnesses |
| C59 | interpolation over `SpecFloat`, any precision | exactness of integers, of the weights 1 and 0, of products by 1 and sums with 0, without real numbers; witnesses in binary32 |
| C60 | strides with descriptors (`NamedStride.v`) | the construction theorem of C57 with default 1; the fold of `as_stride` followed on values and on what is known at compile time |
| C61 | contexts (`Context.v`) | steps at distinct coordinates commute, so permuting the visits does not change the outcome; witnesses with the reversed order |
| C62 | storage with and without living objects (`Lifetime.v`) | invariant over histories: one block of living objects per table and nothing else; each loop followed through its partial states |
| C63 | sums, products, scans with types (`Sums.v`) | casts are homomorphisms modulo the width, and the width of a type divides that of any common type; the loop is a fold that may be undefined; for the failing cases, the first partial sum or product that is not representable |
| C64 | `count`, `find`, `find_first_of`, `replace`, `copy` on integer types | C32-C41 with the comparison of the language; comparison is congruence modulo the common width |
| C65 | interpolation over `SpecFloat`, any precision (`RoundSpec.v`: the error bound) | `RoundFacts.v`: the operations of `SpecFloat` are Flocq's, hence correctly rounded reals; a calculus of approximations `appr k e m x y` (k roundings, absolute error e, magnitude m) followed through weights, products and sum; then back to rationals |
| C66 | `Calls.v`; spec: the sequence of calls as a fold over the list of elements in row-major order (`CallSpec.v`) | the loops of `for_each` over the box as folds; `agrees` relates a sequence of calls that fails to a loop that fails |
| C67 | the searches of `Calls.v`; spec: `called` counts the calls | induction on the length of the interval, with floor and ceiling of log2(n+1) as its measure; nothing assumed of the answers |
| C68 | `Label.v`: a container with an optional label; spec: the text of C51 | containers with the same shape and elements have the same text; the operations of C25-C28 on the rest |
| C69 | `Fail.v`: the histories of C29 with, at each operation, the failure met by it; `FailSpec.v`: leaked blocks, untouched states, sizes | the ownership invariant of C29 extended with a list of lost blocks; a block is lost when its owner (the temporary) forgets it |
| C70 | `Exn.v`: the loops and algorithms with callables that may throw; `ExnSpec.v`: lists of calls up to the first exception | the loops visit a prefix of the coordinates; an exception is a flag that switches the later steps off, so the prefix theorem of C66 applies |
| C71 | `Rights.v`: const qualification of elements and pointers through the derivations of containers; `RightsSpec.v`: writing and reading through a chain | induction on the chain: the element type of a view never changes; the first view decides |
| C72 | `Mixed.v`: the interpolation with coordinates of type float, double, long double (80 bits) or int, the usual arithmetic conversions made explicit; `MixedSpec.v`: least and most precise types | conversions to a wider format are exact (Flocq); the calculus of C65 in the format of the least precise coordinate, operations in any wider format |
| C73 | `Convert.v`: the conversions between integers and floating-point numbers of C++, a copy that converts each element; `ConvertSpec.v`: nearest values, representable numbers, integer parts | induction on the number of elements; rounding through Flocq's nearest-point theorem |
| C74 | `Objects.v`: the function objects in existence as a list of states, copies made where a parameter is taken by value; `ObjectSpec.v`: which objects of the caller changed | the call theorems of C66 and C67 with the list of objects as state, which the calls change in one or two places only |
| C75 | every model function with a debug flag; `CheckSpec.v`: the outcome with assertions is that without or an abort | the relation is closed under sequencing; per assertion, its condition always has a value, or the number of elements was computed before; for programs (the operations of C83) by induction on the number of calls, `CheckFacts2.v` |
| C76 | no new code: pairs of functions of `Algo.v` and `Search.v`; `LawSpec.v`: the place of a search result in row-major order | from the exact results of C32-C43: each value has one rank, so a monotone predicate cuts the list of values at the position found |
| C77 | no new code; `SplitSpec.v`: parts of a container, tilings, the loops of the caller over the slices | the coordinates of the parts are a permutation of the box (no duplicates, same members), so are the values; blocks of rows: equality of the lists; writes by induction on the parts |
| C78 | `SliceText.v`: operator<< of constants, ratios, `end` expressions and slicers, with the kinds (run-time or constant) of the integers | the text is put in the form factor, divisor, offset; `SliceTextSpec.v` reads such texts as arithmetic; uniqueness: decimal numbers end where their digits end |
| C79 | transform and copy of `Algo.v`, slices of `Slicer.v` | invariant of the traversal without any hypothesis on aliasing: the memory at each coordinate is the initial one with the elements of the earlier coordinates set; `OverlapSpec.v` states what is seen; shifts by strong induction on the rank |
| C80 | `Settings.v`: options as a keyed list, `pick` for each keyword and category, the constructors of views and tables from it | look-ups are invariant under permutation; the calls modelled elsewhere (`view_on`, `table_as`, `relabel`, `reshape`, ...) are shown to be instances |
| C81 | `Names.v`: `==` and `compress` of axes, `compress<N>` and `==` of shapes with their descriptors; conversions of `Prefilled.v` | axis by axis; values reduce to C08-C10, names by induction over the descriptors |
| C82 | `SliceKinds.v`: the functions of `Slicer.v` on integers that are constants or not, the descriptors of the sliced shape and strides | values reduce to C44-C46; kinds by cases over the slicer, axis by axis |
| C83 | `Program.v`: sequences of calls, each the model of the function called (`Container.v`, `Slicer.v`, `Algo.v`, `Search.v`), with results fed back, tables of static shapes on the stack and others on the heap (block.hpp 28-32); `ProgramSpec.v`: the same calls on boxes of cells | simulation, one case per call, from the lemmas of C12-C30, C42, C43, C45, C75; invariants: blocks owned by one table, every live cell accounted for |
| C84 | `FloatSums.v`: reduce, transform_reduce, inner_product and the scans on numbers of any arithmetic type (usual conversions, conversion back to the type of init) | standard model of rounding (Flocq), induction over the elements; exactness: multiples of 2^e; sums of ones: uniqueness of representations |
| C85 | `Throw.v`: the operations of `Lifetime.v` with a counter of element operations, any of which throws; constructors destroy what they made, `noexcept` functions end the program; `ThrowSpec.v`: tables as values, the list of element operations of each operation on tables and the first that throws | the loops run to the first throw of their plan; invariant `tables_hold` of C62 over histories |
| C86 | `Stream.v`: streams as a text and a format; insertions of texts, characters, integers in the three bases with sign, prefix and filling; each `operator<<` as the list of its insertions, containers as their loop; `StreamSpec.v`: filling of a text, digits read in a base, values that can be told in a base, names | insertions after the first do not see the width; numerals are injective in each base and free of the separators; simulation of the loop of `Output.v` |
| C87 | `Threads.v`: the algorithms as sequences of accesses to elements, equal to the models above when run alone; threads that take turns after every access; `ThreadsSpec.v`: what a sequence of accesses touches, data races, the merged memory | invariant: every thread is where it would be alone in a memory that agrees with the shared one on all it may touch; footprints by induction on the loops; tiles of C77 |
| C88 | `Position.v`: comparison of positions, the narrowing rule on the array of find.hpp 48; `PositionSpec.v`: the loop that replaces what is found | C41 and C26; induction on the matches left; the strides of `reverse` computed per type of extent (`ReverseFacts.v`) |
| C89 | `Overload.v`: the overload sets of the algorithms (forms and roles of parameters, packs, the calls each body makes, which object goes where), viability, ranking of reference bindings and partial ordering of the standard | exhaustive evaluation over the finitely many categories of arguments for the signatures of fixed arity; for the two variadic ones computation of the viable set and of the ordering for any length of the pack |
| C90 | `Attribute.v`: functions on shapes with their attributes and ways of passing, programs of assignments and calls, executions with a cache of earlier results that a write clears of those of pure functions | invariant of the cache (what it holds is what a call would give now) by mutual induction on calls; the stale executions are built for any list of assignments |
| C91 | `Instance.v`: tables with the allocator object of their deleter, any behaviour of allocators over an own state and a shared world, histories of operations with the calls and ends of objects as a trace | each operation is described by the blocks and objects it makes and ends (up to a permutation of what the tables hold); invariant of histories; requests computed from the program alone |
| C92 | `FloatIota.v`: iota with a running value of any arithmetic type, steps and elements of any type | the running values are the partial sums of equal steps, so the lemmas of C84 apply; exact values by induction over the steps |
| C93 | `FloatCompare.v`: == and < on any arithmetic types, in the algorithms that compare elements with values; `FloatCompareSpec.v`: numbers, infinities and NaN | a conversion to the common type keeps exact elements; comparisons of floats are those of the numbers (Flocq); then the general lemmas of C36, C38, C41, C42 and C43 |
| C94 | `Assign.v`: the algorithms that assign, with a conversion to the element type at each assignment; `AssignSpec.v`: what becomes of a number | one loop lemma for all of them: it runs to its end or meets the first number without a value of the type; then the conversions of C73 |
| C95 | `Extension.v`: the constructors of `Prefilled.v` for values of a user type, described by what it customises; what does not compile is `UB`; `ExtensionSpec.v`: what a value stands for, denies and needs | each object is replaced by a value of the library with the same effect on its axis, and the theorems of C11-C14 are used |
| C96 | `Steps.v`: the loops of `ForEach.v` and `Search.v` with a counter; `StepsSpec.v`: what ending means, the number of tests | the fuel of each loop is shown to suffice for all sizes, by induction on it; the counters are removed by induction as well |
| C97 | `Accesses.v`: the calls of `Threads.v` run alone with a list of their accesses; `AccessesSpec.v`: per coordinate in turn, until one of them says so, counts | lists of accesses of the access trees by induction on the loops; the elements of a coordinate from C23-C28; counts from the lists |
| C98 | `UserSlicer.v`: slicers with any functions as members, next to those of `Slicer.v`; `UserSlicerSpec.v`: what a slicer says on an axis, types that answer as slicers of the library | induction on the axes, then as C45; equality of the answers for the replacement |
| C99 | `LargeSpec.v`: `large` (64-bit last extent, at most 2^63-1 elements), `large_layout`; no new model | invariant of the folds: the accumulator is of a 64-bit type; accesses, algorithms from C27 and C32-C43 with `far_ok` |
| C100 | `AnyFail.v`: `any_allocator` down to the allocator objects and the storage of `model_t`, with a failure in each construction; `AnyFailSpec.v`: `fvalue_step`, `fholds`, `untouched` | simulation: `fholds` is kept by each step, for each place of failure |
| C101 | `Ctor.v`: the choice between the constructors of `prefilled` for values and options, `__is_ordered`; `CtorSpec.v`: the calls that compile, what each place gets, in terms of the type as written | the normalised descriptors determine the names written; the ordered case is a positional match, the others a look-up of distinct names |
| C102 | `Bools.v`: values tagged with bool or an arithmetic type, promotion and boolean conversion, and the sums, scans, assignments, comparisons, counters and source copies on them; `BoolsSpec.v`: number of true elements, nonzero values, the bool after k steps | folds over the elements as ors or counts; running values by the general loop invariant of the writing loops; conversions by cases on the floating-point representation |
| C103 | `LargeSliceSpec.v`: `step64`, `count64`, `countable`, `checkable`, `room` (what is asked of the slicers); no new model | exactness of the typed arithmetic of one axis for values of any type (each result is below an operand); types of the strides of the slice followed along the axes; accesses and algorithms from C27 and C32-C43 with `far_ok`; backward on one axis by the same exactness, unsigned products taken modulo 2^64 |
| C104 | `ThreadTables.v`: allocation and release of blocks as steps of a thread, the constructors, copies, assignment and destruction of tables as such steps, equal to `Container.v` when nobody interrupts; `ThreadTablesSpec.v`: ownership of blocks, data races with releases, `safe` (what a thread may do, whatever the numbers of its new blocks), programs of threads | invariant: every block is shared or has one owner, every thread is safe in the memory as it knows it, which agrees with the real one on all it may use; an accessible state has a bounded number of turns by well-founded induction on `safe`; rules for the operations by their footprints |
| C105 | `Uses.v`, `Uses2.v`: the algorithms with callables that are functions of their arguments and of the whole memory; `UsesSpec.v`: what a callable reads, the coordinates before another, a callable that keeps a state in cells of its own, tallies | invariant of the loop: what was written satisfies the recurrence and later writes are not read by it; uniqueness by induction on the coordinates in order; simulation of the loops of C66 for states kept in tables |
| C106 | `LoopUse.v`: for_each over a shape and for_each_index with callables that are functions of their arguments and of the whole memory; `LoopUseSpec.v`: the callables that store or combine, the coordinates with a property in order | invariant over the coordinates visited: every element is its old value combined with what was sent to it so far; a sorted list is determined by its elements; matrix product, transposition and rows as instances; algorithms on slices by C34, C37, C40 and C45; calls on disjoint regions in general |

Not expressible / out of scope
* Floating-point rounding in user callbacks; contraction of interpolations into fused multiply-add, and
  evaluation in a wider format than the type's (FLT_EVAL_METHOD).
* C++ overload resolution except that of the algorithms (C89), `requires` clauses and template instantiation errors: only those
  compile-time predicates that are themselves computations on extents are modelled. Calls that do not
  compile are `UB` in the model and excluded by hypotheses.
* Allocators whose copies or moves change their value, or whose destructor throws (C100);
  allocations that fail, and `any_allocator`, in threads that make tables (C104).
* Locales and failing streams, the lifetime of the characters a label refers to, a keyword given twice, and the invoke
  protocol beyond the two customisation points of C95.
* Contexts whose calls overlap in time (C61 covers any order of calls), and the algorithms that are empty or commented out in the repository
  (comparison, partition, remove, reorder, shuffle, sort, unique).

### Findings

Each is part of a property's statement and has a theorem, unless marked (read only: seen in the text, not
modelled).

* `contains` casts extents to the coordinate's type: some in-range coordinates of a narrow type are rejected, some
  negative coordinates are accepted (C05).
* `numel` and the row-major arithmetic overflow or truncate above 2^31-1 (C04); a range or C array of
  that size gets a wrong default shape (C55).
* Shape equality is not transitive (C09); nbdims counts trailing unit axes (C07).
* Run-time `[]` on a mixed shape reads the wrong slot or past the storage (C12).
* Conversions of compile-time extents silently change them without assertions; `fit_constraints` accepts
  different orders (C16); `as_array` picks a type by width only (C15).
* `70000_c`, `2'000_c`, `010_c` and `0x10_c` are wrong (C17); nested `std::array` gives the reversed shape (C18).
* Tables with explicit strides allocate `numel` elements whatever the strides (C24).
* A moved-from table keeps its shape with null data (C31, C29); copies drop the source's allocator (C29).
* `any_allocator`: copying from a non-const lvalue recurses without end; copying an empty one dereferences null (C30).
* `exclusive_scan` in place is wrong (C40): it ignores the elements; `iota` advances once too often and then overflows (C35).
* `reverse` of a reversed view, of a strided view, or with `uint32_t` extents reads other memory, and so does
  `find_last` there (C42); copying `reverse(c)` onto `c` does not reverse it (C54).
* `at(i)` has extent 0; `slice(to=,length=)` starts at 0; a zero step divides by zero (C44).
* Slices: backward slices with `uint32_t` extents wrap; huge steps overflow; `drop_first(size)` and slicing
  an empty axis abort; slice of a slice uses strides derived from the shape (C44-C46); the reachability trait is
  unsound for four slicers (C47).
* Interpolation reads past the extent on the last grid line; infinite unweighted neighbours give NaN; `floor`
  truncates toward zero (C48, C49); between two equal elements rounding may leave the interval (C59), by a bounded
  amount, or overflow to infinity (C65).
* No check that a source has enough elements (C55); pointer sources without size are empty (C55).
* `of_size(width[5])` has size 0; constants are cut to the declared type of their axis (C57).
* Strides with negative and with unsigned values may compare equal; a run-time stride of 1 is not a unit (C60).
* Heap tables assign to elements that were never constructed and never destroy them (C62).
* Sums are computed in the type of the elements (wrong for narrow ones), products in that of the operands;
  `exclusive_scan` overflows on a value it does not store (C63). -1 is found as 4294967295u (C64).
* If `make_unique` of the deleter's allocator throws, the block just allocated leaks; a null result of
  `malloc` is not tested: the table reports elements it does not have (C69).
* The default constructor of `table` goes through a `noexcept` constructor: an exception thrown while it makes its
  deleter ends the program (C69).
* Const heap tables can be written; slices of non-const static tables cannot; `view{t}`, `reshape` and `relabel`
  cast const away from static tables; tables on const ranges have const elements that can be written (C71).
* A float coordinate limits interpolation of doubles to float accuracy, with a result of type double; integer
  elements are rounded to float (C72).
* Tables with an element type of their own convert their source unchecked: values wrap, overflow to infinity, or the
  behaviour is undefined (C73).
* `for_each(f, shape)` calls a copy of `f` and returns nothing; `for_each_index(f, c)` calls a copy where
  `for_each(f, c)` calls `f` itself; the last comparison of `binary_search` starts again from the initial state; nine
  algorithms do not compile with an operator that is not const (C74).
* The assertion of `coordinates` can overflow where the function itself does not (C75).
* The text of an `end` expression with a divisor and an offset shows the offset multiplied by the divisor
  (`end/2+1` is written `end/2+2`); unsigned offsets are written without a sign, wrapped (C78).
* `copy` between overlapping slices of one table repeats elements if the destination comes after the source; there is no
  `copy_backward` (C79).
* The row-major strides are computed even when strides are given, so that views of large extents with small strides are
  undefined behaviour; a view of a type and a size but no source is not empty and has no elements (C80).
* Shapes whose names are exchanged are equal but do not convert to each other; the constructor from a shape of larger
  order accepts named axes in its constraint and then does not compile (C81).
* A range with a constant step and constant bounds usually has a run-time extent, since the two branches of the
  conditional in `slicer::reshape` are constants of different types; slices never keep the names of axes (C82).
* Containers cannot be sliced from a constant on: `linear_index` takes integral types only, and `origin` hands it the
  constant `reindex` returns; `t(_, end - 1_c)` on a static table and `t(2_c, _)` do not compile (C45, C82).
* Sums of floating-point elements: reduce(in, +, 0) with the integer 0 drops the fraction of every partial
  sum (elements between -1 and 1 vanish); reduce of more than 2^24 floats 1 is 2^24 (C84).
* Tables of static size whose elements throw: default construction, swap and copy assignment end the program
  (`noexcept` functions that are not), a move that throws half-way loses the values moved (C85).
* Inserting an `end` expression with an offset clears `showpos` in the caller's stream; a width only fills up the
  first bracket or word of a shape, position or container; hexadecimal offsets of `end` have no sign (C86).
* The library takes no locks and has no mutable static objects: calls on containers that share elements race if one of
  them writes (C87).
* `find_if` (find.hpp 48) narrows signed loop variables to `unsigned long` in braces: ill-formed C++ for every container
  with a signed or static extent, although g++ only warns; the algorithms of C41, C42, C64, C76, C83 and C87 are modelled as
  what g++ compiles, `strict_find_if` is the other reading (C88). Positions of matches beyond 2^31 are negative (C88).
* `for_each` and `transform` take an unconstrained `Context&` first: a named callable with several containers is taken for
  the context, or makes the call ambiguous (C89).
* `compress(shape const&)` is declared `[[gnu::const]]` although it reads through a reference: `==` on shapes, slicing and
  conversion to fewer axes may use values from before an assignment (C90).
* The allocator given to a table never sees a call: a temporary copy allocates and dies in the constructor, a second copy
  gives the block back; copies of tables always use a `heap_allocator` (C91).
* `iota(out)` on floats stops at 2^24, `iota(out, 0)` does not; `iota(out, 0, 0.5)` fills with zeros; `iota(out, v)` needs
  v + numel(out) to fit the type of v (C92).
* `binary_search(t, NaN)` is true on every table that is not empty; `find(doubles, 2^53+1)` finds 2^53;
  `find(floats, 0.1)` finds nothing even if an element is 0.1f (C93).
* `copy` and `fill` convert silently: `fill(floats, 0.1)` then `count(floats, 0.1)` gives 0, and one double that does not
  fit makes `copy(ints, doubles)` undefined (C94).
* A type convertible to an integer is an extent by the concept, but does not compile on a run-time axis unless
  `as_dimension` is customised; `of_size<T>` does not convert sizes of user types (C95).
* Loops over a table without elements run through the sizes before its first 0 (C96).
* any_of and all_of read on to the end after the first hit; exclusive_scan in place reads back what it wrote (C97).
* The number of elements a user slicer asks for is not checked, nor is its has_step (C98).
* Tables of more than 2^31-1 elements are made too small, `coordinates` and searches from the end fail on views of
  that size; accesses and the other algorithms work if the last extent is of a 64-bit type (C99).
* Slices of such views: `_` on an axis of 2^31 to 2^32 elements aborts in debug builds, a step of type int on the last axis
  makes accesses overflow, an index on the last axis or fewer slicers than axes make the slicing itself overflow; a backward slice cannot start
  from the greatest value of the type of its bound, and its step must be of a 64-bit type (C103).
* Labelled tables cannot be copied; `relabel` of a strided container shows other elements (C68).
* (read only) `accessor::swap` of the run-time order-1 and strided accessors calls a member that does not exist;
  two sizes of `position` in
  one translation unit redefine a friend; `const std::array` sources have no sizes.

## 3. Trusted base

* Coq 8.16.1's kernel (and `coqchk` in the gate).
* `Print Assumptions` answers "Closed under the global context" for every theorem named in
  `MANIFEST.json`, except `linear_error_ieee`, `linear_within_ieee`, `linear_error_float` and
  `linear_error_double` (C65), `mixed_error`, `mixed_error_integers`, `mixed_error_float`, `mixed_error_double`, `mixed_error_extended`,
  `mixed_error_integers_float`, `whole_coordinates_exact` and `whole_coordinates_integers` (C72), `converted_table`, `converted_range`,
  `converted_table_exact` and `converted_table_sorted` (C73), `table_from_options_typed` (C80), the first twelve theorems of C84 (`float_sum_error` to
  `integer_init_drops`), the first six of C92 (`float_iota_error` to
  `integer_iota_stuck`), the first six of C93 (`float_count` to `float_searches`), nine of C94
  (`transform_converts`, `copy_converts`, `copy_if_converts`, `fill_converts`, `replace_if_converts`, `generate_converts`,
  `copy_keeps_numbers`, `copy_round_trip`, `copy_keeps_order`): those go through the real numbers of the standard library and use its axioms
  `ClassicalDedekindReals.sig_not_dec`, `ClassicalDedekindReals.sig_forall_dec`,
  `FunctionalExtensionality.functional_extensionality_dep` and `Classical_Prop.classic`, and no other.
  (`coqchk -o` on the whole library also lists the seven
  `Coq.ssr.ssrunder.Under_rel.*` parameters of a module type implementation, which
  the standard library's own imports bring in; no property theorem depends on them.)
* The reading of the C++ text. Modelled: the functions cited in the model files. Not modelled:
  everything else (section 2 end).
* Semantics of the two external dependencies, which are not in `/repo`, as inferred from their use and
  from the repository's tests:
  * kumi: `fold_left(f,t,i)` combines the last element first, `fold_right(f,t,i)` the first
    element first (forced by `as_stride(of_size(3,5,7)) == (35,7,1)` and the row-major visiting order in
    the tests); `locate` returns the first index satisfying the predicate or the size; `split`,
    `extract`, `apply`, `map`, `map_index`, `for_each_index` in natural order; `inner_product(a,b,i)` adds the
    products to `i` from the first to the last.
  * raberu: `merge(a,b)` prefers the settings of `a`; `opts[k | d]` is the value of `k` or `d`.
* LP64 data model (int 32 bits, long 64 bits), two's complement, conversions modulo 2^n (C++20).
* `malloc` never fails in the model, except in `Fail.v`, and returns fresh blocks; freed blocks are not reused (so a
  use-after-free is always visible as `UB`).

## 4. The unit tests of the repository, run on the model

`TestLang.v`, `TestShape.v`, `TestSlicer.v`, `TestMeta.v`, `TestIndex.v`, `TestAlgos.v`, `TestTables.v` and `TestDoc.v` run the checks of
the repository's own unit tests (`/repo/test/unit`) and the programs of its documentation (`/repo/test/doc`) on the model. They state no property and are no claim: they are a check of the reading
of the C++ text, one `Example` per test case with the file and the lines, decided by computation.

* `TestLang.v` is a small language of the expressions these tests are written with (`kwk::of_size(...)`, `kwk::end/2_c - 1`,
  `shape().is_fully_static`, `TTS_EQUAL`, `TTS_TYPED_EQUAL`, ...), evaluated by the functions of the model. `TestShape.v` (440 checks:
  all of `utility/shape` and `utility/stride` but the loops), `TestSlicer.v` (240: `utility/slicer`) and `TestMeta.v` (99:
  `utility/meta`) were transcribed from the C++ files by a script, expression by expression, types included.
* `TestIndex.v`: the loops and products of `utility/shape/convert.cpp`, `joker.cpp`, `ctor.cpp`, `of_size.cpp`,
  `utility/stride/with_strides.cpp`, `coordinates.cpp`, `linear_index.cpp`.
* `TestAlgos.v`: `algorithm/algos` on integers, with the numbers of calls, and `algorithm/views/reverse.cpp`. `TestTables.v`:
  `container`, `utility/interpolator`, `algorithm/views/relabel.cpp`.

* `TestDoc.v`: the programs of the documentation (`test/doc`), with the text they print. `shape/compatible.cpp` calls a conversion from
  4 x 3 x fixed<5> to shape<_,3,_> incompatible (in a comment); the code accepts it (C16).

* `Prop_UserSlicer.v` has the values of `utility/slicer/api.cpp` (`shape_asks_ex`).

Every check passes. Not run: checks of `sizeof` and of addresses,
`utility/shape/tuple.cpp`, results of floating-point algorithms compared up to a tolerance, and the largest sizes (the files say which);
`context/cpu` repeats `algorithm/algos` with the context as first argument (C61). The first test of `interpolator/floor.cpp` expects a
number one below what the function returns, and passes because half of the difference is within its tolerance.

## 5. How to read `seeded/LOG.jsonl`

Each line is one edit of a definition of the model in a scratch copy, followed by a rebuild in which every proof that no longer goes through
is admitted. `theorems_failed` are the theorems that then depend on an admitted proof.

* Such a failure says that the existing proof does not go through for the edited model. It does not by itself say that the theorem has
  become false: a proof script that follows the text of a definition also breaks for an equivalent edit. Edits made to be equivalent have
  the claim "none", or a note.
* A list of failed theorems is therefore an upper bound of what detects the edit. Examples in `examples_failed` are decided by computation, so
  they do detect it.
* The lines without failed theorems are the informative ones. Each has either theorems that were tightened or added because of it, or a
  note that says why nothing observable changes.
* Most edits are rebuilt only up to the property files that state the claim, so that other theorems may fail as well.
