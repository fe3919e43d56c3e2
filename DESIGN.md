# Formal model of ndhistogram in Rocq (Coq 8.16.1)

Source: `/repo/ndhistogram/src` (version 0.12.0).  All model files are in `rocq/theories`
(logical name `Verif`).

## 1. Modelling approach

* A Rust function becomes a total Gallina function.  Anything that may panic returns
  `outcome A := Val a | Panic`; `Result<T, AxisError>` and `Option<T>` stay data.
* `usize` is `N` with explicit 16, 32 or 64 bit arithmetic (the target width is a field of `Build`).  Every `+ - *` on `usize` or on an
  integer coordinate/bin value goes through an operation that, on overflow, panics when
  `overflow_checks = true` (debug builds) and wraps when `false` (release builds).  The build
  setting is a class parameter, theorems hold for both unless they say otherwise.
* Coordinates are generic over a dictionary of the `num_traits` operations the code uses
  (`NumOps`).  Instances: every fixed-width two's complement integer type (`int_ops`), and IEEE-754
  binary floating point of any precision (`float_ops`, Flocq `BinarySingleNaN`; f64 = 53/1024,
  f32 = 24/128), including `%` (fmod), `NumCast::from(usize)` and `to_usize`.
* `HashMap<usize, V>` is std++ `gmap N V`; iteration order is *any* permutation of its entries
  (theorems quantify over it).  `HashMap<T, usize>` for a user type is an association list with
  replace-on-insert over decidable equality.
* `slice::sort_by` and `slice::binary_search_by` are std functions.  They are parameters with a
  contract (the documented one); concrete implementations (insertion sort; the binary search of
  Rust 1.80 and the branch-free one of Rust >= 1.82) are given and proved to meet the contract.
* Traits (`Axis`, `Fill`, ...) are Gallina type classes (plain records).
* Lazy iterators are modelled as the list they produce when fully consumed.

## 2. Plan per property

| id | what is modelled / how proved |
|----|-------------------------------|
| C01, C02 | `Uniform` over `int_ops`; linear/division arithmetic over Z; `PropIntWrap.v`: ranges that wrap around the type |
| C03-C07 | `Uniform` over Flocq floats; monotonicity of rounding and relative error lemmas |
| C08 | constructor decision procedure, all branches |
| C09, C15, C18 | NoFlow wrappers over the underlying axis |
| C10, C16 | cyclic wrappers over `int_ops`; `Z.rem` arithmetic |
| C11 | cyclic wrapper over floats; NaN/inf case proved, totality refuted by a witness, what holds is proved, for `new` (PropCyclicFloat) and for `with_step_size` (PropCyclicStep: the range is the computed upper edge minus low, bins are step wide; |num*step - range| <= 3u(|low|+|high|) is the extra error) |
| C12-C14 | `Variable` over any lawful partial order, any sort/search meeting the contract |
| C17, C19 | `Category` with its two maps; invariant of `insert` |
| C20 | default methods of trait `Axis`, lawfulness of each built-in axis |
| C21-C25 | `AxesTuple` for any number of axes; mixed-radix arithmetic with usize overflow |
| C26-C33 | `VecHistogram`, `HashHistogram` over any axis; induction over operation histories |
| C34-C36 | permutation / concatenation of histories over algebraic laws of the value type |
| C37-C40 | operators, conversions |
| C41 | schedules = permutations of per-bin tasks; reductions = binary trees |
| C42-C45, C51 | value types over integers / reals / Flocq floats |
| C46-C48 | equality, conversions, derived `Default` |
| C49, C54 | `Display.v`, `DisplayCat.v`: bar length over Flocq floats, decimal bin counts, axis texts |
| C50 | `Serde.v`: serde data model (tree), round trip for every lossless codec of the components |
| C52 | `PropEq.v`: derived `PartialEq` of axes; equal axes give equal answers |
| C53 | `PropEndToEnd.v`, `PropExactAxes.v`, `PropFlagship.v`, `PropCountsAll.v`: macros + axis + histogram + iteration put together; counts for every bin type by induction on the calls that land in a bin |
| C55 | `PropMapReduce.v`: any tree of splits and merges; `PropFloatSumSparse.v`: which bins a sparse result stores |
| C56 | `Unwind.v`: every mutating call returns the state left behind together with its result |
| C57 | `VariableCyclic` over floats, with the exact fmod of Flocq floats |
| C58, C59 | `FloatApprox.v`: a small calculus of accumulated rounding errors |
| C60 | value types over integers with conversion to Flocq floats; `PropMeanIntOut.v` with conversion to a wider integer type |
| C61 | `Derived.v`: dictionaries of `==`, `partial_cmp` and hash feed for every `derive`; laws proved by closure under projection and lexicographic pairing |
| C62 | `PropWrapping.v`: `Wrapping` = the unchecked integer dictionary under any axis; histogram operators inherit the laws of the bin operator; `PropAlgebraMore.v` for sparse histograms (same panics and errors, associativity without assuming success) |
| C63 | `Lazy.v`: an iterator is the list of its suspended items; `for` loops with break and unwinding over it |
| C64 | `Program.v`: client programs as trees of API calls branching on the answers, run over stores of dense or sparse histograms; forward simulation through bin-wise readings, both directions for panics |
| C65 | `AxesMacro.v`: the arms of `impl_axes!` as a rewriting step on invocations, its body with fields accessed by number; induction on the parameter list, then equality with the recursive tuple model |
| C66 | `Errors.v`: error types, `From`, messages, `?`; case analysis of every constructor for every number dictionary; induction on chains of fallible steps |
| C67 | `PropProject.v`: sums over duplicate-free key lists by induction on the calls (over C51/C45's exact bin contents), mixed-radix digits for slices, pigeonhole for the storage bound; `PropAlgebraMore.v`: sparse projection, sums modulo 2^w in builds without overflow checks |
| C68 | `CategoryEq.v`: the category axes over an arbitrary `eqb` (HashMap::insert keeps the stored key); invariant over the constructor's fold for every equivalence; refinement to `Category.v` when `eqb` is identity |
| C69 | `Serde.v` with two `Build`s, one for the writer and one for the reader: codecs' `usize` checks against the reader's width; induction on entry lists; dense histograms and `CategoryNoFlow` in `PropVariants.v` |
| C70 | `num_dim` of the axis records in `Uniform.v`, `VarAxis.v`, `Category.v`, `CategoryEq.v`, `Axes.v`; by computation for arbitrary contents |
| C71 | `Unwind.v`, `Caught.v` (interrupted mutable iteration, inductive histories whose steps may be caught panics); invariant by induction on the history |
| C72 | small-step model of threads with atomic (lock-protected) fill calls over `vec_call`/`hash_call`, poisoning on panic; every schedule performs a permutation of the calls, then C34 |
| C73 | simulation between two compilations (`SimSpec.v`): `refines` on outcomes, lifted to axes (`axis_refines`), fill methods and whole `Program.v` programs; each axis kind, tuples of any length, integers, floats and bin values are instances; `PropTargets.v` covers targets of different pointer width (the float index never depends on the build) |
| C74 | the same simulation with `==` as the relation on axes (from C52 and the equality laws of C61), run in both directions |
| C75 | `PropFloatCounts.v`: the accuracy theorems for float `Uniform` (C10) turned into bin contents of filled histograms; the two-sided bounds compare with real-number edges `low + k w (1 ± 4u)` |
| C76 | `PropBrackets.v`: `bracketed` axes (a sure and a possible test per bin), closed under tuples of any length; C10, C11, C53 and C57 give the instances, and counting is proved once for all of them |
| C77 | `PropNested.v`: a tuple type is an `axis_type`, so nesting needs no new model; mixed-radix numbers and digits of concatenated grids; the simulation of C73/C74 (without `num_dim`) lifts it to whole programs |
| C78 | `PropRelabel.v`: `relabels` says that one axis is, bin by bin, part of another under a renumbering; the tally theorems C28/C29 turn it into equal contents once; instances for the NoFlow axes, reordered categories, componentwise tuples (mixed radix) and exchanged neighbouring axes, closed under composition |
| C79 | `PropAccess.v`: `&mut V` as the value and what the histogram becomes when it is overwritten; case analysis on the two representations |
| C80 | `GridSpec.v` (grid of multiples of 2^e), `FloatGrid.v`, `PropFloatGrid.v`, `PropGridCounts.v`, `PropCountsAll.v`: sums, differences, products and remainders on the grid are exact; the key lemma is that rounding D/S for integers D, S within the mantissa keeps the integer part (relative error < 1/D); exactness in the sense of C53 follows by comparing coordinates with edges as integers |
| C81 | `ValueGeneric.v` (the value types with exactly the trait bounds of the source, operators as functions that may panic; `W` and `T` may differ), `PropViews.v`: fields by induction on the list of fills, views by induction on the history with a simulation (`shows`) between the two bin types; the number types of `Value.v` are shown to be an instance |
| C82 | `FloatScale.v` (rounding commutes with multiplication by 2^k away from overflow and underflow; a division by an integer may be inexact only above the smallest normal number; `fmod` scales), `PropUnits.v` (`in_units`, `axes_in_units`: the relation between the two units): every step of the constructors, of `index` and of `bin` is followed in both units; programs by the simulation of C73. `PropUnitsVariable.v`: Variable axes by C83 (comparisons are alike in both units), the wrapped coordinate of a VariableCyclic axis by the lemmas of `FloatScale.v` |
| C83 | `PropEmbed.v`, `PropEmbedFloat.v`: a relation between two coordinate types under which values compare alike (`compare_alike`) or are equal alike (`equal_alike`); simulation (C73's `axis_refines`) between the axis over one type and the axis over the other. Std assumptions: `binary_search_by` only looks at the comparisons (`search_extensional`) and `sort_by` is parametric (`sort_parametric`), both proved for the implementations in `StdAlgo.v`. Integers: the narrow arithmetic with overflow checks refines the wide one |
| C84 | `PropAsVariable.v`, `PropAsVariableFloat.v`: `C84_determined_by_bins` from two `exact_axis` (C53); the sorted permutation of strictly increasing edges is unique, so `Variable::new` returns the edges; then C53/C80 exactness of both axes and equality of the bins. Integer cyclic axes need no hypothesis on the coordinate (both wrap it in the same way, overflow included). Not covered: float Uniform axes off the grid, where the computed edges and the division may disagree by rounding (C06, C07) |
| C85 | `PropConstructors.v`: the two axes share `num`, `low` and `step`, so `index` differs only in the comparison with the upper edge; the difference of these by the relative errors of the division, product and sum (`step_accuracy_new`, Flocq). `bin` does not use the step, so `new` over the computed upper edge has the same bins. On a grid the edges and step are exact (C80), `==` follows and C52 gives interchangeability. A vm_computed `f64` case shows the disagreement off the grid |
| C86 | `Alloc.v`: `vec![x; n]`, `clone` and `collect` with the documented limit of `Vec` (`isize::MAX` bytes) and a second interpreter of client programs with it; `PropAlloc.v`: no operation makes a longer vector than its operands, induction on the program. All other properties are about the model without the limit; by `C86_programs` they hold of every run that does not panic. Not modelled: that the allocator may refuse smaller requests (aborts) |
| C87 | `PropRebin.v`: `coarsens` (every fine bin has a coarse bin, and coordinates land accordingly), sums over the fine bins of a coarse bin by induction on the fills, `C87_by_bins` from the exactness of both axes (C53), `C87_tuples` by mixed-radix arithmetic; `PropRebinAxes.v`: integer uniform axes and variable axes over a selection of edges; `PropRebinFloat.v`: float uniform axes, factors `2^j` (division by a power of two commutes with rounding of normal numbers, floors of both quotients agree; shared edges are the same real before the last rounding), counterexample for 3; `PropVariants.v`: category axes along a map of categories |
| C88 | `PropMarginal.v`: `pick_axes`/`pick_coords`/`pick_intervals` take the marked components; picking axes is shown to be a `coarsens` (C87) by induction on the tuple and mixed-radix arithmetic; calls that an axis does not cover are shown to change nothing and left out; C87's theorems on contents then give integers (checked, modular) and f64 counts; `C88_one_axis` for the one-axis implementation; `C87_compose` |
| C89 | `PropMove.v`: `C89_by_bins` reduces `relabels` (C78) to the bins of two exact axes (C53, extended to `VariableCyclic` by `C53_variable_cyclic_int_exact`); the bins of all integer axis types are arithmetic progressions, `turned` lists rotate edges; cutting with flow bins is a `coarsens` (C87) |
| C90 | `PropRefill.v`: the calls reaching a bin are the one for its item (permutation and `NoDup` of bin numbers), then C28/C29; rebinning: totals of the refill calls are the group sums of C87, equality modulo 2^w of two values in range is equality; `PropRefillFloat.v`: no fill turns a bin into -0, hence the condition on the values for all float histograms |
| C91 | `PropCountUnits.v`: `counts_units` states the integer formulas once (`unit_bin`, `unit_bin_cyclic`, `unit_interval`); shown for integer axes from C01/C02/C10 and for float axes from the grid lemmas of C80; shift, mirror, rotation, cut and rebinning are then integer arithmetic, independent of the number type; programs by the simulation of C73 |
| C92 | `PropBinData.v`: two histograms whose contents are related bin by bin stay so under related fill calls and operators, for any relation (`refines` simulation). `PropBinDataFloat.v` and `PropBinDataMean.v` supply the relations (negation, factor 2^k, order) and prove on Flocq floats that one fill, and every statistic, respects them: rounding is odd, monotone, and commutes with powers of two above underflow |
| C93 | `PropProfile.v`: closed forms of what one bin holds after a list of data (sums are left folds of float addition, counts are exact below 2^prec), carried through whole dense and sparse histograms by the tally theorems of C28/C29, and through the / operators by C37/C38; the two sides are then the same float expression. `mult_one`: x*1 = x for every float, NaN and signed zeros included |
| C94 | `PropExactWeights.v`: invariant that a bin is the float `in_units` of the integer sum of the units that reached it (Flocq's `Bplus_correct`, representability of multiples of 2^e up to 2^(p+e), and that a sum is never -0 unless its left side is, so equal values are equal bits); the tally theorems carry it to whole histograms, permutations and C87's grouping of calls give order, merging and rebinning |
| C95 | `PropGridStats.v`: each accumulator (sum, sum of squares, weighted sums, counts) is the float of an integer number of units as long as the stated sums stay below 2^p, so accumulating never rounds and does not depend on the order; the reads then make one rounding (mean, weighted mean, root) or four (variance), bounded with Flocq's `relative_error_N_FLT`; carried to whole histograms, dense and sparse, by the tally theorems |
| C96 | `PropGridOps.v`: bins that are `in_units` of integers: `Bplus`/`Bminus` of them are `in_units` of the integer sum/difference (also the zero is always +0), carried bin by bin through the model of the three forms of the operators; with C94 for filled histograms. Ratios: `Bdiv_correct` without overflow, since a quotient of units is at most 2^p. Efficiencies: float addition is monotone and adding a non-negative number never lowers, so by induction over the sublist 0 <= passed <= total; division and rounding to nearest keep a quotient in [0,1] |
| C97 | `PropNormalise.v`: division of every bin through the models of the scalar `/` and of `values_mut` (any order of the hash table). Float sums of non-negative numbers never fall below a summand, so each quotient is an efficiency (C96). On a grid: the sum is `in_units` of the integer sum (C95), each quotient the rounded exact ratio with relative error at most 2^-p (no underflow: a fraction is 0 or at least 2^-p), and the errors add up to at most 2^-p times 1. `C97_filled`: bins after fills with non-negative weights are non-negative (C28/C29 and the sublist lemma of C96). `C97_cumulative`: partial sums are monotone by the same growth lemma, division by a positive number and rounding are monotone |
| C98 | `PropEquality.v`: the derived comparisons of `Derived.v` (C61 proves their laws; this says what they compare), by induction on the vectors of bins; with C28, C29 and C46 for filled histograms; floats: `Bcompare x x = Some Eq` exactly if `x` is not NaN |

Properties the code violates keep their full statement here; the theorem with suffix `_refuted` has
a concrete witness, and the other theorems of the property say exactly what does hold.

## 3. Trusted base

1. **Coq 8.16.1's kernel** (including `vm_compute`, used in witnesses and examples) and its
   compilation of the files in `_CoqProject`.  No kernel check is switched off, there is no
   `Admitted`, no axiom of our own, no functor, no module type and no OCaml plugin.
2. **Axioms.**  `ASSUMPTIONS.md` lists what `Print Assumptions` reports for every theorem.
   Most theorems are closed under the global context.  The others use only axioms of Coq's standard
   library, all through its real numbers (on which Flocq builds):
   `ClassicalDedekindReals.sig_forall_dec`, `ClassicalDedekindReals.sig_not_dec`,
   `FunctionalExtensionality.functional_extensionality_dep`, `Classical_Prop.classic`.
3. **Libraries used without axioms of their own**: std++ (`gmap`, permutations), Flocq (IEEE-754).
   That Flocq's `Bplus/Bminus/Bmult/Bdiv/Bsqrt` in mode NE *are* Rust's `+ - * /` and `sqrt` on f32/f64
   (IEEE-754 round-to-nearest-even, no x87 excess precision, no flush-to-zero), and that `%` is C's fmod
   (computed exactly), is assumed.  NaN payloads and NaN signs are not modelled.
4. **The reading of the code**: the model was written from the text of `/repo`, each definition cites
   the lines it models, and the code was not run.  The assumptions made in that reading are in section 4.

## 4. What is modelled, what is not

Modelled (file of the model - source):

| model file | source |
|---|---|
| `Base`, `Num`, `Float` | `usize` and integer arithmetic in checked/unchecked builds, `num_traits` dictionary, f32/f64 |
| `Axis` | `axis/mod.rs` (trait, default methods, iterators), `axis/bininterval/bininterval.rs`, `axis/bininterval/singlevaluebininterval.rs` |
| `Uniform` | `axis/uniform.rs`, `axis/uniformnoflow.rs`, `axis/uniformcyclic.rs` |
| `VarAxis`, `StdAlgo`, `StdContract` | `axis/variable.rs`, `axis/variablenoflow.rs`, `axis/variablecyclic.rs`; std `sort_by`, `binary_search_by` |
| `Category` | `axis/category.rs`, `axis/categorynoflow.rs` |
| `Axes` | `axes.rs` (`AxesTuple`, macro `impl_axes!` for any number of axes) |
| `Value`, `ValueFloat`, `ValueGeneric` | `histogram/fill.rs`, `value/*.rs` (number types; f64 accessors; arbitrary component types) |
| `VecHist`, `HashHist` | `histogram/histogram.rs`, `histogram/vechistogram.rs`, `histogram/hashhistogram.rs` |
| `Par` | the rayon iterators (feature `rayon`) |
| `Display`, `DisplayCat` | all `Display` implementations of axes and histograms |
| `Defaults` | derived `Default` |
| `Serde` | derived `Serialize`/`Deserialize` (feature `serde`) |
| `Macros` | `macros.rs` |
| `Unwind` | what fills, iterators and compound operators leave behind when they panic |
| `Alloc` | the size limit of the vectors made by `VecHistogram::new`, `clone` and the operators |
| `AxesMacro` | the recursion and the body of `impl_axes!` |
| `Errors` | `error.rs`: error conversions, messages, derived comparisons, `?` |
| `CategoryEq` | Category and CategoryNoFlow for a category type with a user-defined `Eq` |

Simplifications and assumptions:

* `usize` is 16, 32 or 64 bits: its width is a field of the `Build` every theorem quantifies over (with overflow checks on or off); rustc supports no other width.
* `AxesTuple` is modelled for every number of axes by a recursive definition with the arithmetic of the macro
  `impl_axes!`; the macro's own recursion (which stops at 21 axes) and body are modelled in `AxesMacro.v` and proved to agree (C65);
  rustc's macro matching itself is trusted.  The 1-D case, a separate impl in the source, is modelled separately.
* `HashMap` is a finite map with an arbitrary iteration order, fresh for each traversal; hashing, `with_hasher`,
  `DefaultHasher` and memory are not modelled; the size limit of `Vec` is in `Alloc.v` (C86) and ignored elsewhere.
  For user types used as category or map keys, `Eq` is assumed to be a decidable equality consistent with `Hash`.
* std `sort_by` and `binary_search_by` are parameters with their documented contract (`StdContract.v`); besides it is assumed
  only that the search depends on its list through the comparison results (`search_extensional`, where used it is a hypothesis).
  Two concrete implementations are given and proved to meet the contract.
* Lazy iterators are the list of items they yield when consumed; where laziness matters (panics half way) `Unwind.v`/`Lazy.v`
  model the step-by-step consumption.
* `AddAssign` and `Add` (and the other operators) of a bin type are the same function of a `NumOps`/`BinOp` dictionary.
* `WeightedMean<T, W, ...>` has `W = T` in `Value.v`, the only case for which primitive types have `T: Mul<W, Output = T>`; `ValueGeneric.v` (C81) has the general case.
* rayon: a parallel iterator is an arbitrary schedule (permutation) of one task per bin, a reduction an arbitrary
  binary tree over the items in order; tasks do not share state except through their own `&mut V`.  Work stealing and memory
  ordering themselves are not modelled; that Rust's ownership makes those tasks independent is trusted.
* Unwinding: a panic inside `x op= y` for primitive operands leaves `x` unchanged (the store comes last).  Aborts, `panic = "abort"` and
  out-of-memory are not modelled.
* Display: numbers' own `Display` text is a parameter, except the decimal text of bin counts; a writer's errors are modelled where the
  code looks at them.
* serde: the data model tree, not a byte format; bincode with `#[serde(flatten)]` (known not to work) and JSON with non-string map keys are
  not modelled.
* Not modelled: `Debug`, `std::error::Error::source`, type aliases, documentation attributes, lints, benches and examples.

## 5. Findings (`_refuted` theorems)

Each is a concrete execution of the model in which a natural or documented claim fails.

| theorem | finding |
|---|---|
| `C02_bin_overflow_refuted` | integer `Uniform::bin` overflows for valid axes (`i*(high-low)` is computed in the coordinate type) |
| `C03_float_overflow_only_refuted` | a float just below `high` can be put in the overflow bin |
| `C04_float_num_refuted`, `C04_float_subnormal_width_refuted` | with >= 2^53 bins or subnormal widths `index` can return a number that is no bin |
| `C06_float_bin_contains_refuted` | `Uniform::new(10, 0.0, 1.0)`: 0.3 is indexed to the bin reported as [0.2, 0.3) |
| `C07_float_last_edge_refuted`, `C07_float_edge_overflow_refuted` | last finite edge differs from `high`; inner edges can be infinite |
| `C08_step_validation_refuted`, `C08_with_step_size_wraps_refuted` | NaN steps and empty ranges are accepted; integer range wraps silently in release builds |
| `C10_unsigned_below_low_panics_refuted`, `C10_unsigned_below_low_wrong_bin_refuted` | `UniformCyclic` over unsigned integers panics / gives a wrong bin below `low` |
| `C11_cyclic_float_total_refuted`, `C11_cyclic_float_inside_refuted`, `C57_variable_cyclic_seam_unbinned` | a float just below the seam of a cyclic axis is in no bin |
| `C13_duplicate_edges_early_exit_refuted` | with repeated edges a value can be put in an empty bin (depends on the std version) |
| `C24_axes_bin_out_of_range_refuted`, `C24_empty_axis_bin_panics_refuted` | `AxesTuple::bin` out of range is not `None`; division by zero with an empty axis |
| `C25_overflow_release_aliases_refuted` | too many bins alias silently in release builds |
| `C34_signed_checked_order_refuted` | whether signed sums panic depends on the order of fills |
| `C36_f64_counts_refuted` | merging f64 counts past 2^53 |
| `C38_mul_forms_agree_refuted`, `C38_div_forms_agree_refuted` | sparse `&a * &b` differs from `a * &b` and `a *= &b` |
| `C50_no_validation_refuted` | deserialisation accepts axes no constructor returns |
| `C54_category_noflow_text_refuted` | `CategoryNoFlow` prints an overflow bin it does not have |
| `C56_assign_atomic_refuted`, `C56_composite_fill_atomic_refuted` | a panicking `+=` or fill can leave a half-updated histogram |
| `C59_weighted_mean_negative_variance_refuted`, `C59_mean_cancellation_refuted` | float `WeightedMean` variance can be negative (standard deviation NaN); catastrophic cancellation |
| `C60_mean_i32_overflow_refuted` | `Mean<i32>` overflows on one sample of 46341 |
| `C61_overflow_sorts_before_bins_refuted` | `BinInterval::Overflow` compares less than every finite bin |
| `C64_equality_distinguishes_refuted` | a sparse histogram with a bin filled with 0 is unequal to a fresh one, dense ones are equal |
| `C64_owned_multiplication_distinguishes_refuted` | `l *= &r` and `l * &r` zero a dense bin where `r` is unfilled, but leave a sparse one alone |
| `C85_interchangeable_refuted` | `Uniform::new(11, 0.0, 100.0)` and `with_step_size(11, 0.0, 100.0/11.0)` differ: 100.0 is overflow in one and in the last bin of the other |

`C48` and `C49` also contain witnesses (default-constructed axes that panic, over-long bars).

## 6. Testing the theorems

`seeded/LOG.jsonl` has one line per deliberately wrong edit of the model: the definition, the edit, the claim it breaks,
and the theorems whose proofs failed.  Where a wrong program survived, the theorem added or tightened is named.

## 7. The model run against the repository's own tests

The code cannot be run here, but its test-suite (`/repo/ndhistogram/tests`) and the examples in its documentation record what
it computes.  `RepoTestsAxis.v` and `RepoTestsHist.v` restate every assertion on values in them (including the two exact
`Display` outputs, with a concrete number formatter) and evaluate them on the model for all six builds and both
implementations of the binary search.  They all pass.  This is evidence that the model is faithful, not part of the proofs.
Left out: tests that draw random numbers, that only print, or that only check types.
