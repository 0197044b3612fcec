# Design of the Rocq model of BlasBooster

## 1. Method

* `/repo` is read as text; every model definition cites the file and lines it transcribes and says
  where it simplifies.
* Undefined behaviour is an outcome, never assumed away:
  `res A := Ok a | Throw | AssertFail | UB kind | Diverge` (`Base.v`).  Memory cells hold `option T`
  (`None` = indeterminate); reading an indeterminate cell, reading or writing outside an allocation,
  use after free, double free, null dereference, division by zero, falling off a non-void function are
  distinct `UB` kinds.  `assert` and `BLASBOOSTER_CORE_FAILURE` take a `dbg`/configuration argument, and
  the theorems quantify over it.
* `size_t` is `nat` wherever no wrap-around can matter; where an unsigned subtraction or addition can wrap,
  the model says what happens (explicit `mod 2^64`, or the UB that follows).
* Scalars are an abstract type with operations and **no laws** (class `Scalar`), so a theorem also holds
  of IEEE doubles, unless the statement lists the laws as explicit hypotheses (`RingLaws`, order laws,
  `exact`, `nexact`, `lossless` ...).  Each class of laws has a concrete instance over `Z` beside it
  (`Z_RingLaws`, `zar_exact`, `znx_exact`, ...), so that the hypotheses are satisfiable.  The
  floating-point theorems (C61, C62, C65_rounding, C68_rounding*, C77, the `_ieee` ones, C33_default_settings_total, C51_elements_in_reals) do not use
  laws at all: they are about Flocq's binary32/binary64 with round-to-nearest-even.
* Layout: `X_Model.v` (transcription, no proofs), `X_Spec.v` (specification, written without the model's
  helpers), `X_Proofs.v`, and `X_Props.v` (the property theorems, `Print Assumptions`, and a non-vacuity
  theorem `Cxx_nonvacuous` exhibiting a concrete case meeting the hypotheses).
* A property that is false of the code in some corner gets a `Cxx_..._refuted` theorem: a concrete
  execution of the model that violates the natural claim.  The positive theorem then carries the exact
  side condition that excludes it.  (146 such refutations; they are the findings listed in section 6.)
* Objects and programs: where a property is about *histories* (C01-C04, C35, C36, C52, C57, C67, C70, C73, C74, C75, C76) the
  model is a small-step machine over a heap of blocks / objects / files, one step per public member
  function, and the theorem is by induction over arbitrary step sequences against an abstract machine
  (map from object to value) in the `_Spec` file.

## 2. Trusted base

1. Coq 8.16.1's kernel (`vm_compute` is used in closed computations, so its VM conversion too).
2. The transcription: the cited C++ really does what the corresponding definition says.  No compiler, STL or
   third-party library is modelled beyond the explicit assumptions listed in section 5.
3. Axioms.  `Print Assumptions` was run on all 720 `Cxx_` theorems:
   * 648 are **Closed under the global context**;
   * these use the standard library's `ClassicalDedekindReals.sig_forall_dec` and
     `FunctionalExtensionality.functional_extensionality_dep`:
     `C61_sum`, `C61_product`, `C61_blocked_product`, `C62_pipeline_error`, `C65_rounding`;
   * these use those two and `ClassicalDedekindReals.sig_not_dec`:
     `C77_norm_of_one_part`, `C77_norm_of_window`, `C77_reported_error`, `C77_reported_error_of_actions`;
   * these use those three and `Classical_Prop.classic`:
     `C33_default_settings_total`, `C34_default_ieee`, `C34_nan_becomes_zero`,
     `C34_nan_block_is_zero_refuted`, `C34_nan_nonvacuous`, `C34_nan_is_cut_as_zero_refuted`,
     `C34_insignificant_nonvacuous`, `C36_ieee`, `C36_ieee_nonvacuous`, `C36_nan_spoils_counts_refuted`,
     `C37_ieee`, `C37_nan_bound_refuted`, `C37_ieee_nonvacuous`, `C38_ieee`, `C51_elements_in_reals`,
     `C51_chain`, `C61_nonvacuous`, `C62_default_settings`, `C62_no_overflow`, `C62_moderate_matrices`,
     `C62_nonvacuous`, `C62_nan_is_multiplied_as_zero_refuted`, `C62_nan_nonvacuous`,
     `C65_rounding_nonvacuous`, `C68_rounding`, `C68_rounding_nonvacuous`, `C68_rounding_total`,
     `C68_total_nonvacuous`, `C68_nan_is_lost_refuted`, `C68_nan_nonvacuous`, `C76_share_ieee`,
     `C76_occupation_ieee`, `C76_empty_matrix_refuted`, `C76_occupation_ieee_nonvacuous`, `C76_ieee_norm`,
     `C76_ieee_occupation`, `C76_ieee_exclusive`, `C76_ieee_nonvacuous`, `C77_ieee_norm_rounding`,
     `C77_norms_do_not_overflow`, `C77_overflow_refuted`, `C77_nan_reported_as_exact_refuted`,
     `C77_nonvacuous`, `C77_special_elements`, `C77_special_nonvacuous`, `C77_special_one_part`, `C77_special_one_part_nonvacuous`, `C77_reported_special`, `C77_reported_special_nonvacuous`, `C77_special_blocks`, `C77_special_blocks_nonvacuous`, `C77_special_two_parts`, `C77_special_two_parts_nonvacuous`, `C34_large_elements_kept`, `C34_large_nonvacuous`, `C62_infinity_is_lost_refuted`, `C76_special_elements`, `C76_special_nonvacuous`, `C79_recorded_counts_ieee`,
     `C79_cut_ieee`, `C83_ieee_answers`, `C83_ieee_races`, `C83_ieee_nonvacuous`.

   All four are axioms of Coq's standard library (its classical real numbers, reached through Flocq).  No
   other axiom, no `Admitted`, no module functor, no kernel flag.
4. `tools/gen_blas.py` transcribes the ~5000 lines of machine-generated BLAS forwarding code into
   `BlasIf_Data.v` token by token; it aborts on any text it does not recognise.  It is trusted for C71
   only, in the same way a hand transcription is.

## 3. Properties: what is modelled, how it is proved

| ids | model | proof |
|---|---|---|
| C01-C02 | `Storage_Model`: heap of blocks, storage objects `{data,size,own}`, one step per member function of `Storage<T,flexible,flexible>` | ownership invariant `InvV`/`NoLeak` by induction on histories; refinement to a map object -> values (`Storage_Spec`) |
| C03 | same machine with external memory | `Alias_Spec`: regions, handles, who presents what; simulation (`Alias_Proofs`) |
| C04 | fixed-size heap storage, with proxies, conversions and loads | ownership invariant by induction on histories |
| C05, C06, C09 | `Dense_Model`: shape record (orientation, dims, leading dims, offset) over one flat allocation; `getPosition` | div/mod arithmetic, injectivity, list update lemmas |
| C07, C52 | `Obj_Model`: `Dimension` with cached full size, dense matrices as objects over the storage heap, caches | invariant / simulation by induction on programs; refutations |
| C08, C10 | cursor and striped-iterator state machines with explicit loops | induction on the loop: exact list of visited addresses |
| C11-C14, C17 | constructors, fillers, conversions as loops over buffers | loop invariants, pointwise specification |
| C15, C16, C18, C20, C21 | `Sparse_Model`: CSC arrays (value, key, offset), loops as in the code | loop invariants; abstraction function to a matrix function |
| C19, C22, C23 | binary functors, two-part matrices (`Dyn_Model`) | pointwise; evaluated without laws where possible |
| C24-C28 | native kernels as loops | exact fold order; ring laws only for the `_ring` corollaries |
| C29 | reference semantics of `?gemm`/`?csrmm` as a function of all arguments (`Mult_Spec`); adapters as argument lists | rewriting the reference with the arguments actually passed |
| C30-C32, C53 | blocked matrices: dense matrices of dynamic blocks, generic dispatch over the type list | sums over partitions |
| C33, C34 | first match over the type list with occupation counts (`Conv_Spec`) | case analysis; order laws; IEEE instance |
| C35-C38 | matrices with cached norm/occupation (`Check_Model`), checkers and their order | histories; order laws; refutations |
| C39-C41, C54 | greedy cut search, quantified over every outcome of `std::sort` consistent with the comparison | loop invariants |
| C42 | folds over represented elements for each representation | |
| C43, C44, C55 | token archive / binary file cells (`IO_Model`) | round trip by induction |
| C45, C56, C58 | characters written to the stream (`Text_Model`) | induction on rows/columns |
| C46-C50, C57, C59, C60 | `Tools_Model`: enum parser, type list, statistics, tracker, matrix provider, random generator | induction, histories for the tracker |
| C51 | comparisons (`Eq_Model`) | pointwise |
| C61, C62 | `Fp_Spec`: a rounding format with relative and absolute error; IEEE instance in `Fp_Ieee` | running-error induction; the blocked pipeline block by block |
| C63 | list-of-lists-of-blocks constructor | induction over block rows |
| C64-C66 | Eigen/Blaze adapters, benchmark actions with repetitions, the whole table loop (`Bench_Model`) | refinement to a product; induction over pairs and actions |
| C67 | sparse matrices as objects (`SObj_Model`) | simulation by induction on programs |
| C68 | the block-wise benchmark action: cut, select, multiply, merge, repeat (`BlkAct_Model`) | composition of C33/C39/C53 with the repetition loop |
| C69 | stream formatting state (precision, fixed, width) as a machine (`Stream_Model`) | frame lemmas on the state |
| C70 | a directory of files with crash points inside every write (`File_Model`) | induction on histories |
| C71 | ~450 forwarding functions, templates and generated text (`BlasIf_*`) | reflection: a checker proved sound once, run by the kernel |
| C72 | generic dispatch over one or two types with effects, first match, failure (`Disp_Model`) | induction on the type list |
| C73 | matrices and windows as objects over the storage heap (`WObj_Model`) | simulation to regions and views by induction on programs; tracking of the holder of a region |
| C74 | run-time typed, two-part and blocked matrices as handles into a heap of matrix objects (`PObj_Model`) | simulation to a value machine (`PObj_Spec`) by induction on programs, with an ownership flag per variable; heap invariant over all programs |
| C75 | stack storages and fixed-size sparse storages (`Stk_Model`) | simulation to lists of values by induction on programs; the failing operations for all arguments |
| C76 | comparisons with cached norm and occupation (`Query_Model`) over the object programs of `Check_Model`; IEEE quotients | induction on programs; Flocq for the quotient |
| C77 | the norm loops and the benchmark's report over numbers with rounding (`FpNorm_Spec`), IEEE instance through Flocq | induction on the element list with relative and absolute error; grid argument for overflow |
| C78 | MKL's sparse * sparse adapter: both calls of `mkl_?csrmultcsr` as its documentation describes them, with the index shifts and the argument order of the code (`Csr_Model`) | lines of the result as for C26, also for rectangular operands; necessary conditions by inverting a successful call |
| C79 | the converter with the recorded occupation counts of its source threaded through every question (`ConvC_Model`); removes the simplification of Dyn_Model | a relation "same outcome, map still true" kept by every step; the order of checkers from C38, for IEEE by cases on NaN/infinite/finite |
| C80 | the insertions each matrix makes into a stream whose format state (notation, precision, width, side, fill, style, print mode) is carried along (`Print_Model`) | explicit list of insertions of a matrix by induction on rows and columns, then induction over the program |
| C81 | Alloc_Model: the storage calls with a flag per call that lets its allocation fail; AllocM_Model: dense and sparse objects | Simulation by the program without the failed calls (value semantics and no-leak follow from C01/C02), with bookkeeping of who holds memory; the failing half (resize, assignment, load) for every program/state that reaches it |
| C82 | Thr_Model: the storage calls of Storage_Model by many threads on one heap, calls interleaved as a whole | Frame lemma (a call touches only blocks its own objects point to and new ones) + separation invariant between the threads; C01/C02 per thread |
| C83 | Race_Model: the const queries as single accesses to norm_, isNormUpToDate_ and the map, arbitrary schedules, data race = conflicting next accesses of two threads | Invariant per program counter, measure for progress; the race theorem is an equivalence: invariant in one direction, constructed schedule in the other |
| C84 | Trk_Model: TrackerRegister::add as reads and writes of plain cells, arbitrary schedules | Invariant bounding cells and values read by the work already finished; constructed schedules for races and lost counts |

Per-theorem names and notes are in `MANIFEST.json`.

## 4. Which code is modelled

| /repo file(s) | model |
|---|---|
| Core/Storage.h, Memory.h, SparseStorage.h (fixed) | Storage_Model (heap), Alloc_Model, AllocM_Model (failing allocations), Thr_Model (threads), Stk_Model (on stack, fixed sparse), the striped proxy in Dense_Model |
| Core/Dimension.h, DenseMatrix.h, Cursor*.h, StridedCursorBase.h, StripedIterator.h, Copy.h, MatrixFiller.h, Transposition.h | Dense_Model, Obj_Model, WObj_Model, Sparse_Model |
| Core/SparseMatrix.h, SparseStorage.h (flexible), ZeroMatrix.h, BinaryFunctors.h, Occupation.h | Sparse_Model, SObj_Model, Eq_Model, Dyn_Model |
| Core/MultipleMatrix.h, DynamicMatrix*.h, BlockedMatrix.h, BlockedMatrixGenerator.h, MatrixConverter.h, Threshold.h | Dyn_Model (values), PObj_Model (shared handles) |
| Core/Multiplication*.h, MatrixMultExp.h | Mult_Model, Csr_Model, Dyn_Model, Bench_Model |
| Core/AbsoluteValueRangeChecker.h, Norm.h, NormPolicy.h, OccupationPolicy.h, Parameter.h | Check_Model, Norm_Model, Query_Model, Race_Model (threads) |
| Core/BlockSizeGenerator.h | Bsg_Model |
| Core/MatrixFileIO.h, serialize members, MatrixFactory/MatrixFileImporter.cpp, Benchmark/generate_matrix.cpp | IO_Model |
| Core/MatrixIO.h, PatternGenerator.h, GenerateTypeMatrix.h, Utilities/TypeName.h | Text_Model, Print_Model (stream state) |
| Core/StatisticalErrorInformation.h, Utilities/EnumParser.h, TypeList.h, Tracker.h, MatrixFactory/MatrixGenerator.cpp, Benchmark/MatrixProvider.cpp, ActionProvider.cpp, show_pattern.cpp, PythonBinding/matrix.cpp | Tools_Model, Trk_Model (threads) |
| Utilities/EqualWithinNumericalAccuracy.h | Eq_Model |
| Utilities/FileIO.h | File_Model, IO_Model |
| Utilities/ScopedTimer.h, Benchmark/time.* , table output of benchmark.cpp | Stream_Model |
| Benchmark/Action_*.h, benchmark.cpp | Bench_Model, BlkAct_Model |
| Utilities/exec_dyn*.h, exec_if*.h, TypeChecker.h | Dyn_Model, Norm_Model, Disp_Model |
| BlasInterface/*, src/Interfaces/* and their `.pre` templates and FunctionList.yml | BlasIf_* |

**Not modelled**: build and CI files, documentation, example data and notebooks, empty tag types
(Direction.h, EmptyTypes.h, MatrixBase.h, BlasBoosterException.h, Noexcept.h, wrong_t.h), forwarding
includes; `src/Benchmark/matrix_matrix_mult.cpp` and `src/BlasAnalyzer/*` (dead: not in any CMake target,
and BlasAnalyzer includes headers that do not exist); `Utilities/StaticDispatcher.h` (unused, its static assertion rejects every list); `getOccupation` and
`isOccupationLargerThan` on DynamicMatrix (not instantiable for all types of the list: Zero and two-part matrices take a
threshold, dense ones a checker);
`DebugPrint.h`, `BoostSerializePath.h` (no behaviour of its own beyond forwarding);
the Python glue of pybind11 itself.

## 5. Simplifications and assumptions about the outside

* Allocation succeeds except in `Alloc_Model.v` and `AllocM_Model.v` (C81), where any allocation may throw
  `std::bad_alloc`; the other models do not consider it.  Single-threaded, as the code is,
  except Thr_Model, Race_Model, Trk_Model (C82-C84), where steps of threads interleave sequentially consistently; calls into BLAS
  are assumed not to run callbacks.
* External BLAS (`?gemm`, `mkl_?csrmm`, `mkl_?csrmultcsr`): the reference semantics in `Mult_Spec.v`.  The theorems hold for
  every association order that semantics allows where so stated.  The OpenBLAS complex dot products assume
  the result-first calling convention; this is a hypothesis of `C71_complex_dot`.
* Eigen: `Map` over the given pointer with its default column-major layout; Blaze: `CustomMatrix` throws
  unless its documented padding/alignment conditions hold (`Bench_Model.v`).
* Boost serialisation archives are token lists, written and read in the same order; XML/JSON syntax is not
  modelled, except which names are invalid (`File_Model.v`).
* File system: files are lists of bytes/cells; a crash may happen between any two writes of a run.
* `std::sort` may return any permutation sorted with respect to the comparison; `std::map`/`std::set` are
  ordered association lists; random engines are arbitrary functions from state to (value, state).
* Named-return-value elision: where correctness depends on it (blocked matrices returned by value), the
  model takes both options and `C68_without_elision_refuted` shows the dependence.
* `shared_ptr` frees an object when nothing refers to it; since nothing can then look at it, freeing is not
  modelled in `PObj_Model.v` (two-part matrices hold one-part matrices only, so there are no cycles to leak).
* Time is an arbitrary monotone clock supplied from outside.

## 6. Findings (each a `_refuted` theorem, or the failing half of a theorem)

* Storage: copying a moved-from or proxy storage leaks; assigning a proxy of one's own memory dangles; load over
  a storage leaks (C01, C03).  Fixed heap storage double-frees on assignment to a
  moved-from one, and frees the caller's memory after assignment or loading into a proxy (C04).
* A failed allocation in `resize` or copy assignment leaves a storage owning memory it has released: its destructor
  releases it again; a failed `load` leaves the new size with the old memory (C81).
* Fixed-size sparse storage is never changed by assignment; too long value lists overrun stack storages; run-time
  sized matrices on the stack have no memory (C75).  `FixedSize` matrices do not compile (Dimension.h 31 names a
  template parameter as a member), so only the storages of fixed size are modelled.
* `getSize()` is stale after swap, after `ZeroMatrix::resize` and throwing resizes (C07, C28, C52, C67).
* Striped iterators over empty blocks and windows of windows read the wrong cells (C09, C10, C14).
* The move constructor of a window does not move the leading dimensions: the moved-to window shows the first
  column for every column index; windows dangle after resize/assignment of their matrix (C73).
* Copies of run-time typed matrices, of blocked matrices and parts of two-part matrices share their elements, so
  `+=` on one changes the others; `A -= M` with A a part of M always gives 0 (C74).
* Ragged nested lists are read out of bounds (C11, C63).
* Row-major sources are silently misread by the sparse conversion, native dense kernel, Eigen adapter, file
  reader (C15, C18, C21, C24, C44, C55, C64); mixed orientation additions add transposed cells (C19).
* `Zero - M = M`; `Sparse - Dense` has its operands exchanged; two-part differences and `+=`/`-=` are wrong (C21-C23).
* Norm and occupation caches are never invalidated (C35, C36, C76); `isNormLargerThan` of a two-part matrix is always
  false in a release build (C76); NaN thresholds break the checker order (C38); a NaN
  bound is accepted by every range checker, which then accepts nothing (C37).
* NaN elements of a window become 0 when it is converted, a block of NaN becomes a zero matrix, so products of
  blocked matrices lose NaN (C34): elements that are NaN are multiplied as 0 (C62).  Infinity times 0, or times an element below the threshold, is 0 block-wise (C62).
* Asking once for an occupation with a NaN threshold makes every later count of that kind of range 0 (C36).
* Blocks with an inner dimension of zero blocks, empty blocks (C29, C30, C33).
* The block-size search: `BlockSizeGenerator::matrix_matrix_mult` lacks the early return for short dimensions;
  with the default limits (200, 1000) any dimension from 2 to 399 reads uninitialised variables (C40, C68).
* Detection profiles of non-square column-major matrices index the wrong way round (C41).
* The benchmark reports the largest difference 0 for a result that is NaN everywhere (`std::max(0, NaN)` is 0); the
  two-norm overflows for elements above 2^511 (C77).
* Norms "one" of two-part and sparse matrices with stale counts (C42).
* Archives: no integrity check (C43); file windows: size check wraps, short files read as garbage (C44).
* Moves of blocked matrices lose the unblocked dimensions, self-move empties (C52, C67).
* Benchmark: `diff_i.dat` is overwritten by each action (C66); digits of durations leak into norms, `ScopedTimer`
  leaves `cout` fixed (C69); settings writes are not atomic and a failed flush is silent (C70).
* Band generator: out of bounds for tall matrices, bound wraps (C47); `get_type_counting` returns uninitialised
  counters (C48); `EqualTo` itself is UB (C50).
* MKL sparse * sparse passes compressed columns as rows: for column-major matrices it returns B*A, and it overruns
  arrays for tall ones; the second call swaps two dimensions (C78).
* A matrix that was asked for its occupation and then filled is converted by the old counts: its contents are lost or
  a sparse target is overrun (C79).
* `getNorm`, `getNbOfSignificantElements` and the conversion of a dense matrix to a sparse one write to mutable members
  of a const matrix without synchronisation: two threads that only read a matrix race (C83).  With tracking
  enabled two threads that multiply separate matrices race, and counts get lost (C84).
* Printing a dense matrix leaves scientific notation and ten digits on the stream; column widths ignore `showpos` (C80).
* The committed `BlasInterface_IntelMKL.cpp` differs from its template in `set_num_threads` (`MKL_Set_Dynamic`) (C71).
* What the defects compute is proved exactly, for all inputs, in the `Exact*_Props.v` files: `A * B` of row-major
  square sparse matrices is the product `B A` (C26); a row-major dense operand enters the native kernel, sums and
  sparse conversions re-read in the other order (C15, C18-C21, C24, C27); row-major sparse results that are not
  square are never well formed (C12, C18, C20); the sparse filler with too few places always writes past its key
  array (C12); a gemm product with inner dimension zero has no defined element at all (C29); filling a window
  that has columns but no rows overwrites elements of its parent (C09).

## 7. Testing the theorems against wrong programs

`seeded/LOG.jsonl` has one line per edit of the model.  The harness copies the theories, applies the edit,
rebuilds what depends on it, replaces each proof that breaks by `Admitted` and then asks `Print Assumptions` which
property theorems rest on a broken lemma.  Survivors led to the tightenings recorded in the `tightened` field.
