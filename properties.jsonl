{"id": "C01", "title": "Owning dynamic storage never frees twice, never touches freed memory, and leaks only in two listed cases", "statement": "Take any program that creates any number of run-time sized storages (default, sized, from a value list, copy, move, loaded from an archive) and then copies, moves, swaps, resizes, fills, reads, writes, saves, loads and destroys them in any order, using only storages that own their memory, with indices inside the sizes and no read of a value never written. No operation frees a block twice, touches a freed or foreign block, or reads or writes outside a block; and when every storage has been destroyed, every block that was ever allocated has been freed exactly once, provided no storage was copy-constructed from a moved-from one and no archive was loaded over a storage that holds memory. Those two cases leak (known violations, refuted). Whatever a program does after destroying a storage object, every use of that object is a use of a dead object.", "quantifier": "all histories of operations over any number of storage objects, all sizes, all element values", "why_tests_cant": "the space of operation histories (aliasing, self-assignment, moved-from objects, zero sizes) is infinite; a test run exercises a handful of orders", "anchors": ["include/BlasBooster/Core/Storage.h: Storage<T,false,false,0,false>"]}
{"id": "C02", "title": "Owning dynamic storage has value semantics", "statement": "In every history as in C01 the elements seen through each storage are exactly those of an independent value: a copy equals its source at the moment of copying and is never changed by later operations on the source (and vice versa); a move transfers the elements and leaves the source with size 0; swap exchanges them; resize to the same size keeps them; a write changes one element of one storage only.", "quantifier": "all histories of operations over any number of storage objects", "why_tests_cant": "independence of copies is a statement about all later operations on all other objects", "anchors": ["include/BlasBooster/Core/Storage.h: Storage<T,false,false,0,false>"]}
{"id": "C03", "title": "Storages over external memory never free that memory, and leak or dangle only in listed cases", "statement": "For programs that also construct storages on caller-supplied memory, or on the memory of other storages: the caller's memory is never released, no memory is released twice or without having been obtained, in any program whatsoever; whenever no storage is used after the memory it refers to has gone, every call reports and every cell holds what an aliasing specification says, and after all storages are destroyed all library memory is released if nothing went astray; a storage over caller memory cannot be resized to another size (the call throws and changes nothing). Known violations, refuted: copy-constructing from such a storage leaks the new block; assigning to a storage a proxy onto its own memory leaves it dangling.", "quantifier": "all histories mixing external-memory and owning storages", "why_tests_cant": "ownership errors only show for particular orders of copies, assignments and destructions", "anchors": ["include/BlasBooster/Core/Storage.h: Storage(T*,size_t), copy constructor, copy assignment, resize"]}
{"id": "C04", "title": "Fixed-size heap storage frees each block exactly once and never the caller's memory, unless a proxy or moved-from storage is assigned to", "statement": "For compile-time sized heap storages, any sequence of construction (default, value list, copy, move, conversion from another storage, over caller memory), assignment, swap, loading from an archive, element access and destruction in which no storage that does not own its memory is copy-assigned or loaded into runs without undefined behaviour with the contents an aliasing specification says, and by the time all are destroyed has freed exactly the memory the library allocated, each block once, if no value list or source of the wrong length was given. Known violations, refuted: copy-assigning to a moved-from storage makes two storages own one block (double free); copy-assigning to or loading into a storage over caller memory makes it free that memory; the size given with caller memory is ignored; a value list of the wrong length throws and leaks.", "quantifier": "all histories over fixed-size storage objects", "why_tests_cant": "double frees depend on the history (a moved-from object assigned to later)", "anchors": ["include/BlasBooster/Core/Storage.h: Storage<T,false,true,Size,false>"]}
{"id": "C05", "title": "Element (i,j) lives in its own cell", "statement": "For a dense matrix of any size, in row-major or column-major order, stand-alone or a window of a larger matrix, every index pair (i,j) inside the dimensions addresses a cell inside the allocation, two different pairs address different cells, and an index outside the dimensions trips the debug check. The elements lie in getMinorDimension() lines of getMajorDimension() elements each, one line after the other.", "quantifier": "all dimensions, leading dimensions, orientations and index pairs", "why_tests_cant": "needs to hold for every dimension and every index pair", "anchors": ["include/BlasBooster/Core/DenseMatrix.h: operator(), getPosition"]}
{"id": "C06", "title": "Writing element (i,j) changes exactly element (i,j)", "statement": "After A(i,j)=v, A(i,j) reads v and every other element of A (and of any window onto A that does not contain (i,j)) reads what it read before.", "quantifier": "all matrices, indices, values", "why_tests_cant": "frame property over all other elements", "anchors": ["include/BlasBooster/Core/DenseMatrix.h: operator()", "include/BlasBooster/Core/DenseMatrix.h: SubMatrix constructor"]}
{"id": "C07", "title": "getSize() is rows times columns, except after swap and the resizes that do not maintain it", "statement": "For every dense matrix obtained by any composition of constructors (default, sized, over caller memory, value list), conversions (same or other orientation, from a window), transposition, copies, move construction, successful resizes, element writes, fillers and copies from another matrix, getSize() equals getNbRows()*getNbColumns() and the number of stored elements. The operations that break this are listed and refuted: swap of two matrices of different size, a resize that throws because the memory belongs to the caller, resize of a Zero matrix and of a blocked matrix. A moved-from matrix keeps its dimensions and getSize() but has no readable element and cannot be resized to a non-zero size.", "quantifier": "all histories of matrix-level operations", "why_tests_cant": "redundant cached size can diverge only on particular operation orders", "anchors": ["include/BlasBooster/Core/Dimension.h", "include/BlasBooster/Core/DenseMatrix.h: swap, resize, constructors", "include/BlasBooster/Core/SparseMatrix.h: resize, swap", "include/BlasBooster/Core/ZeroMatrix.h: resize"]}
{"id": "C08", "title": "Row and column cursors visit exactly the row's / column's elements in order", "statement": "Iterating an inner cursor over row i (column j) of a dense matrix or window of any orientation visits the elements (i,0),(i,1),... ((0,j),(1,j),...) once each, in order, terminates, and never leaves the allocation.", "quantifier": "all dimensions, leading dimensions, both orientations, both directions, every row/column", "why_tests_cant": "termination and exactness of pointer loops with strides for every shape", "anchors": ["include/BlasBooster/Core/Cursor.h", "include/BlasBooster/Core/CursorBase.h", "include/BlasBooster/Core/StridedCursorBase.h"]}
{"id": "C09", "title": "A window aliases exactly its region of the parent", "statement": "A window (sub-matrix) of size r x c at (i0,j0) inside a column-major matrix that is not itself a window reads and writes exactly the parent's elements (i0+i,j0+j): reading, writing, filling and copying into it touch exactly that region and nothing outside. Known violation, refuted: a window of a window shows other elements than the region it names.", "quantifier": "all parent sizes, window positions and sizes that fit", "why_tests_cant": "every window geometry", "anchors": ["include/BlasBooster/Core/DenseMatrix.h: sub-matrix constructor 424-436", "include/BlasBooster/Core/Storage.h: striped storage", "include/BlasBooster/Core/StripedIterator.h"]}
{"id": "C10", "title": "Striped iterator walks the blocks forwards and backwards", "statement": "For at least one block and a block length of at least one: from begin() to end() a striped iterator visits, in order, each position of each block and skips each separator; from rbegin() to rend() it visits the same positions in reverse; ++ followed by -- returns to the same element for every element but the last. Known violation, refuted: with block length 0 the iterator visits positions of separators.", "quantifier": "all block lengths, block counts and separator lengths", "why_tests_cant": "counter arithmetic for every geometry including empty blocks", "anchors": ["include/BlasBooster/Core/StripedIterator.h", "include/BlasBooster/Core/Storage.h: begin,end,rbegin,rend"]}
{"id": "C11", "title": "Nested value lists build the matrix they depict", "statement": "A dense matrix built from a non-empty rectangular nested list has as many rows as the list, as many columns as its first row, and element (i,j) is the j-th entry of the i-th row, in either orientation. Known violation, refuted: ragged lists are not detected (a short row is read past its end).", "quantifier": "all rectangular nested lists", "why_tests_cant": "all shapes, both orientations", "anchors": ["include/BlasBooster/Core/DenseMatrix.h: initializer list constructors 368-391"]}
{"id": "C12", "title": "Fillers set every element to the documented value", "statement": "After construction with a filler every element is initialised: the constant filler gives the constant, the continuous-number filler counts 1,2,3,... in storage order, the Hilbert filler gives 1/(i+j-1) with i and j counted from 1, the diagonal filler gives v on the diagonal and 0 elsewhere and rejects non-square matrices; the continuous filler of a sparse matrix stores all elements, if its number of cells is 0 or large enough. Known violation, refuted: with fewer cells the sparse filler writes outside its arrays.", "quantifier": "all dimensions, both orientations", "why_tests_cant": "no uninitialised element for every size", "anchors": ["include/BlasBooster/Core/MatrixFiller.h"]}
{"id": "C13", "title": "Dense to dense conversion preserves every element", "statement": "Constructing a dense matrix from another dense matrix of any element type and any orientation yields the same dimensions and, at every (i,j), the converted value of the source element.", "quantifier": "all matrices, both orientations on both sides, all element conversions", "why_tests_cant": "all shapes", "anchors": ["include/BlasBooster/Core/DenseMatrix.h: conversion constructors 456-477", "include/BlasBooster/Core/Transposition.h", "include/BlasBooster/Core/Copy.h"]}
{"id": "C14", "title": "Window to dense conversion filters by the value checker", "statement": "Copying a non-empty window into a stand-alone dense matrix with a value checker keeps the elements accepted by the checker and writes 0 for all others, at the same positions. Known violation, refuted: an empty window with columns makes the conversion write outside the new matrix.", "quantifier": "all windows, checkers and orientations", "why_tests_cant": "all windows and thresholds", "anchors": ["include/BlasBooster/Core/DenseMatrix.h 480-522"]}
{"id": "C15", "title": "Dense to sparse to dense keeps exactly the accepted elements", "statement": "Converting a column-major dense matrix or a non-empty window of one to a sparse matrix with a value checker and back yields the same matrix with all rejected elements replaced by 0; the number of stored entries is the number of accepted elements. Converting between sparse formats keeps the matrix within one orientation, and from column-major to row-major if there is a row. Known violations, refuted: row-major dense sources, a stale element count, and row-major to column-major sparse conversion give wrong matrices or write outside the arrays. What the violating conversions do instead is determined exactly.", "quantifier": "all dense matrices, all checkers, all orientation pairs", "why_tests_cant": "all sparsity patterns", "anchors": ["include/BlasBooster/Core/SparseMatrix.h 185-224", "include/BlasBooster/Core/DenseMatrix.h 592-641"]}
{"id": "C16", "title": "Sparse matrices stay well-formed", "statement": "Every column-major sparse matrix the library produces by construction, conversion, filling, transposition, addition, subtraction and multiplication from such matrices has non-decreasing offsets starting at 0 and ending at the number of used entries, and inside each column strictly increasing row indices below the row count; none of these operations fails on such matrices (transposition needs a row).", "quantifier": "all operations and inputs", "why_tests_cant": "representation invariant over every producing operation", "anchors": ["include/BlasBooster/Core/SparseMatrix.h", "include/BlasBooster/Core/SparseStorage.h", "include/BlasBooster/Core/BinaryFunctors.h", "include/BlasBooster/Core/Multiplication_Native.h", "include/BlasBooster/Core/Transposition.h"]}
{"id": "C17", "title": "Dense transposition", "statement": "transpose(A) has swapped dimensions and element (j,i) equal to A(i,j); transposing twice gives A back.", "quantifier": "all dense matrices, both orientations", "why_tests_cant": "all shapes", "anchors": ["include/BlasBooster/Core/Transposition.h 8-32"]}
{"id": "C18", "title": "Sparse transposition", "statement": "The transpose of a well-formed column-major sparse matrix with at least one row is well-formed, has the same number of entries, and represents the transposed matrix, without touching memory outside its arrays. Known violations, refuted: no rows, or row-major non-square matrices, access memory outside the arrays.", "quantifier": "all well-formed sparse matrices", "why_tests_cant": "counting-sort index arithmetic for every pattern including empty rows, columns and matrices", "anchors": ["include/BlasBooster/Core/Transposition.h 34-87"]}
{"id": "C19", "title": "Dense addition and subtraction are elementwise", "statement": "A+B, A-B, A+=B, A-=B on dense matrices of equal dimensions and orientation give at each (i,j) the sum/difference of the operands' elements, also when the target is a window (only its region changes) or both operands are the same matrix; unequal dimensions trip the debug check of + and -. Known violation, refuted: operands of different orientation are combined in storage order.", "quantifier": "all dimensions, element types, orientation", "why_tests_cant": "all shapes; holds for floating point because the operation order is exact", "anchors": ["include/BlasBooster/Core/BinaryFunctors.h 142-171"]}
{"id": "C20", "title": "Sparse addition and subtraction represent the elementwise result", "statement": "For well-formed column-major sparse A, B of equal dimensions, A+B and A-B are well-formed and represent the elementwise sum/difference (in exact arithmetic; without it, each element is the one operation applied to the stored values).", "quantifier": "all pairs of sparsity patterns", "why_tests_cant": "merge loop with all interleavings of the index lists", "anchors": ["include/BlasBooster/Core/BinaryFunctors.h 174-248"]}
{"id": "C21", "title": "Mixed dense/sparse addition and subtraction", "statement": "For column-major operands of equal dimensions Dense+Sparse, Sparse+Dense and Dense-Sparse give at each (i,j) the sum/difference in operand order; Dense+=Sparse and Dense-=Sparse do so for targets of any orientation and for windows; the unsupported compound assignments to a sparse matrix throw. Known violations, refuted: Sparse-Dense computes Dense-Sparse; row-major dense operands of + are addressed as column-major.", "quantifier": "all operands", "why_tests_cant": "all patterns, operand order", "anchors": ["include/BlasBooster/Core/BinaryFunctors.h 251-293", "include/BlasBooster/Core/BinaryFunctors.h compound assignments"]}
{"id": "C22", "title": "The zero matrix is neutral", "statement": "M+0, 0+M and M-0 equal M, M+=0 and M-=0 leave M unchanged if the dimensions agree and trip the debug check otherwise; 0+=M and 0-=M throw. Known violation, refuted: 0-M gives M instead of -M. The dimensions of zero matrices are not compared by + and -: a zero matrix of any size is accepted, the sum of two zero matrices is the first one.", "quantifier": "all matrices of all types", "why_tests_cant": "all types and shapes", "anchors": ["include/BlasBooster/Core/BinaryFunctors.h zero specialisations", "include/BlasBooster/Core/ZeroMatrix.h"]}
{"id": "C23", "title": "A two-part matrix behaves as the sum of its parts", "statement": "In exact arithmetic, for column-major operands of any of the run-time types (zero, sparse, dense, or two parts): the product, the sum, the difference (unless both operands are two-part, or the left one is zero, or sparse minus dense is involved), dense += and -=, and the conversion to dense represent what the operation gives on the sum of the parts. Parts of different dimensions are refused. Known violations, refuted: two-part minus two-part, two-part += and -=, operations on a two-part matrix without parts. (Rounding is covered by C61.) Exactly which expression each difference and compound assignment computes is stated for every combination of types.", "quantifier": "all parts and operands, all operators", "why_tests_cant": "all combinations of operand kinds", "anchors": ["include/BlasBooster/Core/MultipleMatrix.h", "include/BlasBooster/Core/BinaryFunctors.h 444-600", "include/BlasBooster/Core/MatrixMultExp.h"]}
{"id": "C24", "title": "Dense product is the exact sum in index order", "statement": "C=A*B on column-major dense matrices or non-empty windows of such sets C(i,j) to ((0+A(i,0)*B(0,j))+A(i,1)*B(1,j))+... evaluated in exactly that order, hence also bit-for-bit in floating point; no access leaves the operands; mismatched dimensions trip the debug check. Known violation, refuted: row-major operands give a wrong product. A result object over memory of the caller gets the product if its number of elements fits; otherwise the call throws before reading anything.", "quantifier": "all dimensions with A.columns=B.rows, any scalar type, no algebraic laws assumed", "why_tests_cant": "all shapes including empty", "anchors": ["include/BlasBooster/Core/Multiplication_Native.h 23-53"]}
{"id": "C25", "title": "Cursor-based product works for every orientation", "statement": "The cursor-based dense product gives the same elements as C24's formula for any orientation of A, B and C.", "quantifier": "all dimensions and all eight orientation combinations", "why_tests_cant": "all shapes and orientations", "anchors": ["include/BlasBooster/Core/Multiplication_Native.h 59-97"]}
{"id": "C26", "title": "Sparse times sparse", "statement": "The product of two well-formed column-major sparse matrices is well-formed, represents the matrix product of the represented matrices (exactly the accumulation in index order over the stored pairs; the mathematical product in exact arithmetic) and stores no zero entries.", "quantifier": "all well-formed operands over any ring with decidable zero test", "why_tests_cant": "all sparsity patterns", "anchors": ["include/BlasBooster/Core/Multiplication_Native.h 158-205"]}
{"id": "C27", "title": "Sparse times dense and dense times sparse", "statement": "Both mixed products of column-major operands equal the dense product of the represented matrices (exactly the accumulation in index order over the stored entries; the mathematical product in exact arithmetic).", "quantifier": "all well-formed operands", "why_tests_cant": "all patterns and shapes", "anchors": ["include/BlasBooster/Core/Multiplication_Native.h 211-280"]}
{"id": "C28", "title": "Products with the zero matrix", "statement": "A product with a zero matrix on either side is a zero matrix with A.rows rows and B.columns columns; mismatched inner dimensions trip the debug check. Known violation, refuted: getSize() of the product keeps the value from before.", "quantifier": "all operands", "why_tests_cant": "all shapes", "anchors": ["include/BlasBooster/Core/Multiplication_Native.h 283-316"]}
{"id": "C29", "title": "BLAS back-ends are called with arguments that denote A*B", "statement": "Given a BLAS whose gemm/csrmm obeys its reference specification (written out in the model), the OpenBLAS and MKL dense, mixed-precision and sparse-dense back-ends compute the product for all column-major operands whose dimensions fit a 32-bit int and whose inner dimension is at least 1 (for csrmm: at least one row, entry count below 2^31); a back-end summing in index order agrees with the native product bit for bit. Known violation, refuted: with an empty inner dimension gemm rejects its arguments and the result stays uninitialised.", "quantifier": "all dimensions and contents", "why_tests_cant": "argument order and leading dimensions must be right for every rectangular shape", "anchors": ["include/BlasBooster/Core/Multiplication_OpenBLAS.h", "include/BlasBooster/Core/Multiplication_IntelMKL.h"]}
{"id": "C30", "title": "Blocked product equals unblocked product", "statement": "In exact arithmetic, if A and B are cut into blocks of any of the run-time types with matching inner cuts and at least one inner block, multiplying block-wise gives a blocked matrix that represents the product, and assembling it gives the unblocked product. Known violation, refuted: without inner blocks the product's blocks stay null. (Rounding is covered by C61.)", "quantifier": "all partitions, all block kinds, any semiring", "why_tests_cant": "all partitions and all mixtures of block types", "anchors": ["include/BlasBooster/Core/Multiplication_Native.h 108-152", "include/BlasBooster/Core/DenseMatrix.h 525-561"]}
{"id": "C31", "title": "Run-time dispatch always finds the right kernel", "statement": "For every pair of dynamic matrix types in the type list, once the static tables are initialised, the dispatched operation runs the kernel of exactly that pair of types and its result type is the one of the C++ type computation and again in the list. Known violations, refuted: types outside the list read outside the table; operations run by an earlier static initialiser call an empty function.", "quantifier": "all pairs of dynamic types and all operations", "why_tests_cant": "exhaustive over the type list and for arbitrary lists", "anchors": ["include/BlasBooster/Utilities/exec_if.h", "include/BlasBooster/Utilities/exec_if_2dim.h", "include/BlasBooster/Utilities/exec_dyn_2dim.h", "include/BlasBooster/Utilities/TypeList.h", "include/BlasBooster/Core/DynamicMatrixTypeList.h", "include/BlasBooster/Core/DynamicMatrixFunctions.h"]}
{"id": "C32", "title": "Cutting into blocks and reassembling is the identity", "statement": "Cutting a dense matrix along any row and column partition whose sizes add up to its dimensions and converting the blocked matrix back to dense yields the original matrix, if each block conversion is exact.", "quantifier": "all matrices and all partitions", "why_tests_cant": "all partitions including one-element and uneven blocks", "anchors": ["include/BlasBooster/Core/BlockedMatrixGenerator.h", "include/BlasBooster/Core/DenseMatrix.h 525-561"]}
{"id": "C33", "title": "Type selection picks the first type whose two occupation limits hold", "statement": "The converter turns a column-major matrix or non-empty window into the first type of the type list whose double and float occupation limits are both respected, if the two limits of the zero type agree; if there is none the failure is reported; with limits of 1 for the dense double type every non-empty matrix gets a type. Known violations, refuted: the float limit of the zero type is ignored; an empty block is accepted by no type. For every setting of limits and accuracies (negative, reversed or contradictory ones too) it is determined whether a block gets a type and which, whether the settings are rejected, or whether there is no type.", "quantifier": "all matrices and all threshold settings", "why_tests_cant": "real-valued thresholds and all occupation values", "anchors": ["include/BlasBooster/Core/MatrixConverter.h", "include/BlasBooster/Core/Threshold.h"]}
{"id": "C34", "title": "Block conversion loses at most the significance thresholds", "statement": "Converting a block (a non-empty window of a column-major matrix, or a whole column-major matrix when the chosen type is not the pair sparse double + dense float) to the chosen type stores each element unchanged, or as 0 if its absolute value is not above the double significance threshold, or rounded to float if it is not above the float threshold; only the type Matrix<Sparse,double> additionally drops elements between the two thresholds (a violation shown by a refutation), and a whole matrix converted to the pair sparse double + dense float counts its large elements twice (also shown by a refutation). Known violation, refuted: over IEEE numbers a NaN element is above no threshold, so in a converted window it becomes 0 whatever type is chosen, and a block of NaN becomes a zero matrix. Two matrices that differ only in elements above no threshold are cut into the same blocks. With the default settings an element beyond 2^-23 in absolute value, finite or infinite, is unchanged whatever the chosen type, and one beyond 2^-52 is unchanged or rounded to float, except that sparse double may drop it (for windows, and for whole matrices unless the type is the pair sparse double + dense float).", "quantifier": "all blocks, types and thresholds", "why_tests_cant": "all values", "anchors": ["include/BlasBooster/Core/MatrixConverter.h ConversionFunctor", "include/BlasBooster/Core/Threshold.h"]}
{"id": "C35", "title": "norm() is the norm of the current contents", "statement": "As long as no object is changed, move-assigned or swapped after its norm (or the norm of the object it was copied from) has been asked for, getNorm() returns the norm of the matrix's present elements. Known violation, refuted: after any such change the old norm is reported.", "quantifier": "all histories of writes, assignments, resizes and getNorm calls", "why_tests_cant": "caching bugs need a particular order of calls", "anchors": ["include/BlasBooster/Core/NormPolicy.h"]}
{"id": "C36", "title": "Occupation counts are those of the current contents", "statement": "As long as reset() is called before an object whose occupation has been asked for is changed, and all checkers are double checkers, getNbOfSignificantElements/getOccupation describe the present elements and every program of such calls runs without undefined behaviour. Known violation, refuted: without reset() the count is stale, and a sparse matrix built from it writes outside its arrays (C15). Known violation, refuted: one question with a NaN threshold spoils the cache; every later count with a range of that kind, of whatever bounds, is then 0 until the matrix is reset.", "quantifier": "all histories of writes, resets, moves and queries", "why_tests_cant": "cache staleness needs particular histories, and leads to a heap overflow only then", "anchors": ["include/BlasBooster/Core/OccupationPolicy.h", "include/BlasBooster/Core/SparseMatrix.h 185-224"]}
{"id": "C37", "title": "Value-range checkers accept exactly their range and reject bad ranges", "statement": "A range checker accepts x iff |x| is inside the declared open/closed/half-open range; constructing one with a negative or reversed range throws; adjacent ranges split all values without overlap or gap. Over IEEE doubles (infinities, both zeros) this holds for all bounds that are not NaN, and no checker accepts a NaN element. Known violation, refuted: a NaN bound is not rejected, and the checker then accepts nothing.", "quantifier": "all thresholds and values", "why_tests_cant": "real-valued quantification", "anchors": ["include/BlasBooster/Core/AbsoluteValueRangeChecker.h"]}
{"id": "C38", "title": "Checkers are distinguishable cache keys", "statement": "For checkers of double thresholds without NaN the order used to key cached occupations is a strict weak order and two checkers are equivalent under it only if they accept the same values. Known violations, refuted: comparing checkers of other types reads one object as another class; with a NaN threshold checkers that accept different values are equivalent.", "quantifier": "all pairs/triples of checkers", "why_tests_cant": "order axioms over all triples", "anchors": ["include/BlasBooster/Core/AbsoluteValueRangeChecker.h operator<", "include/BlasBooster/Core/OccupationPolicy.h"]}
{"id": "C39", "title": "Generated block sizes partition the dimension", "statement": "For a matrix with at least one row and column, whenever block-size generation returns, the row (column) block sizes are positive and add up to the number of rows (columns); likewise the three size lists generated for a product A*B cover the rows of A, the common dimension and the columns of B.", "quantifier": "all matrices, all min/max settings, any order among equal detection values", "why_tests_cant": "greedy search over every detection profile and every unstable-sort outcome", "anchors": ["include/BlasBooster/Core/BlockSizeGenerator.h"]}
{"id": "C40", "title": "Generated block sizes respect min and max", "statement": "Every generated block size is at most the maximum (if the maximum is not 0) and at least the minimum unless the dimension stays in one piece; with a minimum of 0 or 1, or a matrix whose elements all have the same magnitude and whose dimensions are at least twice the minimum, sizes are always returned. The only other outcome, for a minimum of 2 or more, is that no position qualifies; the code then uses uninitialised variables (known violation).", "quantifier": "all matrices and min/max settings accepted by the constructor", "why_tests_cant": "depends on the data-dependent choice of cut points", "anchors": ["include/BlasBooster/Core/BlockSizeGenerator.h"]}
{"id": "C41", "title": "Detection profile compares neighbouring rows and columns", "statement": "For row-major matrices the row (column) detection value k is the sum over columns (rows) of the absolute difference between the exponents of rows (columns) k and k+1; for square column-major matrices the two profiles are exchanged, for other column-major matrices they are wrong (known violation); a matrix without rows or columns is rejected.", "quantifier": "all matrices of both orientations", "why_tests_cant": "all shapes and orientations", "anchors": ["include/BlasBooster/Core/BlockSizeGenerator.h get_detection_arrays"]}
{"id": "C42", "title": "Norms are what their names say for every representation", "statement": "In exact arithmetic norm-one, norm-two and norm-max of a dense matrix, window, zero matrix or sparse matrix without unused cells equal the sum of absolute values, root of sum of squares, and largest absolute value of the represented elements (without exact arithmetic: the fold over the elements in storage order); norm-two and norm-max of a two-part matrix with a dense part are those of the sum of its parts; norm-two of a blocked matrix is that of the unblocked matrix if squaring undoes the root for each block. Known violations, refuted: sparse sums have unused cells that are read; norm-one of a two-part matrix is that of twice its first part. Through a run-time typed pointer the norm is that of the matrix pointed to if its type is listed; the norm of a blocked matrix stops at the first block whose norm fails, in the way that block fails.", "quantifier": "all matrices of all types", "why_tests_cant": "all representations of one matrix must agree", "anchors": ["include/BlasBooster/Core/Norm.h"]}
{"id": "C43", "title": "Serialisation round trip", "statement": "Saving and then loading one or several dense matrices yields matrices with the same dimensions and elements, whatever the target held before, and consumes exactly what was written; an archive that ends too early is reported. (Serialisation of sparse matrices is switched off in the code.) Known violation, refuted: an archive whose dimensions do not match its number of elements is accepted.", "quantifier": "all matrices and any following data in the archive", "why_tests_cant": "all sizes", "anchors": ["include/BlasBooster/Core/Storage.h save/load", "include/BlasBooster/Core/Dimension.h serialize", "include/BlasBooster/Core/DenseMatrix.h", "include/BlasBooster/Core/SparseMatrix.h", "include/BlasBooster/Core/ZeroMatrix.h"]}
{"id": "C44", "title": "Reading a window of a file gives that window of the stored matrix", "statement": "Reading an r x c window at offset (i0,j0) from a file that holds an R x C column-major matrix into a column-major matrix that owns its memory gives element (i,j) = stored element (i0+i,j0+j), as long as the byte positions stay below 2^63; windows that do not fit and missing files are rejected if offset plus size does not wrap around. Known violations, refuted: a file that is too short is accepted silently; a row-major target gets permuted elements; an offset that wraps around is accepted.", "quantifier": "all file sizes and windows", "why_tests_cant": "seek arithmetic for every geometry", "anchors": ["include/BlasBooster/Core/MatrixFileIO.h 24-54"]}
{"id": "C45", "title": "Pattern pictures show the right colour for each element", "statement": "The generated picture consists of a header, one line per palette colour, the background, and one string per matrix row, made of one text per element: that of the first palette entry whose threshold the element's absolute value reaches, or the background; with one-character texts, character j of row i belongs to element (i,j). (For settings without quote characters.) Known violations, refuted: with default settings the rows are empty; a file that cannot be opened is not reported.", "quantifier": "all matrices and palettes", "why_tests_cant": "all shapes and palettes", "anchors": ["include/BlasBooster/Core/PatternGenerator.h"]}
{"id": "C46", "title": "Names and type-list indices round-trip", "statement": "With distinct names and values, every registered enum value maps to a name and back to the same value, and nothing else maps to it; an unregistered name or value trips an assertion (undefined behaviour without assertions); position lookups in a type list invert each other for members and yield the list length for non-members. Known violation, refuted: two names for one value break the round trip.", "quantifier": "all maps and type lists", "why_tests_cant": "arbitrary lists", "anchors": ["include/BlasBooster/Utilities/EnumParser.h", "include/BlasBooster/Utilities/TypeList.h"]}
{"id": "C47", "title": "Diagonal-band generator fills the band and only the band", "statement": "A generated square band matrix has the value where |i-j| is below the band width and 0 elsewhere, for every dimension n and every width up to n+1; with more columns than rows the band is restricted to the leading square. Known violations, refuted: wider bands write outside the matrix, as do matrices with more rows than columns; the part of the band right of the leading square is missing.", "quantifier": "all dimensions and band widths", "why_tests_cant": "boundary arithmetic with unsigned subtraction", "anchors": ["src/Benchmark/MatrixProvider.cpp"]}
{"id": "C48", "title": "Type statistics count the blocks of each type", "statement": "The type, dimension and norm matrices derived from a blocked matrix hold for each block its type index, its dimensions and (for one-part blocks, in exact arithmetic) its 2-norm; the type counting adds to each counter the number of blocks of that type, and these numbers add up to the number of blocks. Known violations, refuted: the counters are not initialised; the norm of a two-part block is reported as 0 when failures are not reported.", "quantifier": "all blocked matrices", "why_tests_cant": "depends on uninitialised memory", "anchors": ["include/BlasBooster/Core/GenerateTypeMatrix.h"]}
{"id": "C49", "title": "Error statistics", "statement": "For two dense matrices or windows of equal dimensions and orientation the reported maximum deviation is the largest absolute difference and (in exact arithmetic) the RMSD is the root of the mean squared difference. Known violations, refuted: different orientations, sparse operands and different dimensions give wrong results.", "quantifier": "all pairs of equally sized matrices", "why_tests_cant": "all values", "anchors": ["include/BlasBooster/Core/StatisticalErrorInformation.h"]}
{"id": "C50", "title": "Benchmark settings are honoured in order; malformed entries are reported, unknown ones silently skipped", "statement": "The benchmark providers process the settings entry by entry in file order: a band entry appends one band matrix per dimension and width, a file entry the imported matrix, an EqualTo entry copies an earlier list or throws if there is none; malformed entries throw; the benchmark starts only with equally many, at least one, matrices A and B and at least one action; the actions are those of the known names in order. Known violations, refuted: unknown matrix types and actions are skipped without report; missing A or B and an entry equal to itself are undefined behaviour.", "quantifier": "all names", "why_tests_cant": "all strings", "anchors": ["src/Benchmark/MatrixProvider.cpp", "src/Benchmark/ActionProvider.cpp"]}
{"id": "C51", "title": "Approximate comparison is reflexive on finite elements, symmetric and dimension-aware", "statement": "equal() on dense matrices of the same orientation holds iff dimensions agree and all elements agree within the tolerance; on sparse matrices of the same orientation and dimensions without unused cells iff the same elements are stored with values within the tolerance; it is symmetric and, for finite elements, reflexive. Known violations, refuted: NaN or infinite elements, matrices of different orientation, sparse matrices of different dimensions, transitivity; operator== compares identity, so a matrix is not equal to its copy. Exactly the matrices of finite elements equal themselves; along a chain of n comparisons the first and last elements are less than n times the double after 1e-12 apart.", "quantifier": "all matrices and tolerances", "why_tests_cant": "all pairs", "anchors": ["include/BlasBooster/Core/Storage.h equal, operator==", "include/BlasBooster/Core/DenseMatrix.h equal", "include/BlasBooster/Utilities/EqualWithinNumericalAccuracy.h"]}
{"id": "C52", "title": "Moving and swapping matrices transfers dimensions and elements", "statement": "In every program over dense matrices of one type, move construction makes the new matrix give every answer about dimensions, elements, norm and size the source would have given; move assignment likewise (the norm only if it was not asked of the target before); swap exchanges dimensions and elements; no such program has undefined behaviour that a value-level specification does not forbid, and none leaks unless it copies a moved-from matrix. Sparse moves transfer everything, sparse swaps dimensions and elements. Known violations, refuted: move construction loses the unblocked dimensions, move assignment and swap keep the cached norm, swap does not exchange getSize() and the unblocked dimensions, resizing a blocked matrix leaves getSize(), moving a matrix onto itself empties it.", "quantifier": "all matrices of all kinds and all prior histories", "why_tests_cant": "state carried by several base classes and caches", "anchors": ["include/BlasBooster/Core/DenseMatrix.h 200-295", "include/BlasBooster/Core/SparseMatrix.h", "include/BlasBooster/Core/BlockedMatrix.h"]}
{"id": "C53", "title": "Block-wise multiplication of the benchmark pipeline is the product", "statement": "In exact arithmetic, choosing block sizes, cutting column-major A and B, converting each block, multiplying block-wise and converting back to dense yields A*B when the block conversions are exact. (Rounding and lossy conversion are covered by C61 and C62.)", "quantifier": "all A, B and every block partition the generator may return", "why_tests_cant": "end-to-end composition over all data-dependent partitions", "anchors": ["src/Benchmark/Action_blasbooster_block.h", "include/BlasBooster/Core/BlockSizeGenerator.h", "include/BlasBooster/Core/BlockedMatrixGenerator.h", "include/BlasBooster/Core/Multiplication_Native.h"]}
{"id": "C54", "title": "Cuts are placed at the largest changes", "statement": "In the sizes returned for a detection profile no position without a cut has a larger profile value than a position with a cut.", "quantifier": "all profiles, settings and sort orders among equal values", "why_tests_cant": "the order of equal values returned by an unstable sort and the interplay of groups, minimum and maximum cannot be enumerated", "anchors": ["include/BlasBooster/Core/BlockSizeGenerator.h get_block_size"]}
{"id": "C55", "title": "A generated matrix file reads back as the matrix that was written", "statement": "Importing the raw data file written by the matrix generator, with a header giving the matrix's dimensions, yields a column-major matrix with exactly the written dimensions and elements when the written matrix is column-major; a data file with fewer elements than the header announces, a missing data file or a missing header is rejected with an exception.", "quantifier": "all matrices, all file contents and all headers", "why_tests_cant": "must hold for every size and every short file length", "anchors": ["src/Benchmark/generate_matrix.cpp 61-62", "src/MatrixFactory/MatrixFileImporter.cpp"]}
{"id": "C58", "title": "Printed matrices show every element in place", "statement": "Printing a dense matrix of at most 100 rows and columns writes, between an empty first and an empty last line, one line per row holding the texts of the row's elements in column order separated by blanks, every column right-aligned to one more than its longest text (for element types written by a single insertion); larger matrices are replaced by a message; full printing adds name and dimensions; a sparse matrix without unused cells is printed as its three arrays; through a run-time typed pointer the object pointed to is printed, a null pointer has its own text. A zero matrix is printed as its name, size and dimensions.", "quantifier": "all matrices, element values and element texts without blanks, all storage orders and windows", "why_tests_cant": "must hold for every size and every combination of text lengths", "anchors": ["include/BlasBooster/Core/MatrixIO.h"]}
{"id": "C56", "title": "Picture of the block types", "statement": "The type-block picture of a blocked matrix has the dimensions of the unblocked matrix; the element in row i', column j' of block (I,J) is 0 within the border of the given width along the block's upper and left side and otherwise the shade 10^-t of the block's type t, provided no block is empty or smaller than the border.", "quantifier": "all blocked matrices, block sizes and border widths not larger than the smallest block", "why_tests_cant": "all block layouts", "anchors": ["src/Benchmark/show_pattern.cpp 84-124", "include/BlasBooster/Core/GenerateTypeMatrix.h"]}
{"id": "C57", "title": "Tracker counts and times", "statement": "For every history of properly nested tracked scopes, each tracker identifier's count is the number of its scopes that were left and its time the sum of their durations, whatever other scopes are still open; the printed table lists exactly the identifiers with a non-zero count, in identifier order, with their name, count and time.", "quantifier": "all nestings and sequences of tracked scopes (single thread)", "why_tests_cant": "all execution histories", "anchors": ["include/BlasBooster/Utilities/Tracker.h 74-113", "src/Utilities/tracker.cpp"]}
{"id": "C59", "title": "The error the benchmark reports", "statement": "The max-norm and 2-norm printed for a result are the largest absolute difference and the root of the sum of squared differences between the result and the reference result; the max-norm is 0 exactly if the two agree in every element.", "quantifier": "all pairs of result matrices of equal dimensions", "why_tests_cant": "all matrices", "anchors": ["src/Benchmark/benchmark.cpp 107-113", "include/BlasBooster/Core/BinaryFunctors.h", "include/BlasBooster/Core/Norm.h"]}
{"id": "C60", "title": "Random matrices", "statement": "The random matrix generator returns a matrix of the requested dimensions in which every element is set, each to a sign times 10 to the minus a number drawn from the configured range. Known violation, refuted: the order of the two draws is unspecified, so the same seed may give different matrices.", "quantifier": "all dimensions, seeds, ranges and evaluation orders of the two draws", "why_tests_cant": "all random sequences", "anchors": ["src/MatrixFactory/MatrixGenerator.cpp 6-21"]}
{"id": "C61", "title": "Rounding error of sums and of plain and block-wise products", "statement": "In floating-point arithmetic (any formats obeying the standard rounding model; IEEE binary32/binary64 is proved to be one), each finite element of a sum of two one-part matrices is within uD*(magnitudes held in double) + uF*(magnitudes held in float) of the exact sum, and each finite element of the product of any two run-time typed operands, or of the block-wise product converted to dense, is within ((1+uD)^k-1)*S_double + ((1+uF)^k-1)*S_float + underflow of the exact product of the matrices the operands stand for, where S_double and S_float are the sums of |a||b| over the products the selected library computes in double and in float, and k is the inner dimension plus 5 (block-wise: largest inner block plus number of inner blocks plus 4).", "quantifier": "all operands, all run-time types, all partitions, all three back ends, any order of summation inside BLAS inner products", "why_tests_cant": "an error bound over all floating-point inputs and all mixtures of block precisions", "anchors": ["include/BlasBooster/Core/Multiplication_Native.h", "include/BlasBooster/Core/Multiplication_IntelMKL.h", "include/BlasBooster/Core/BinaryFunctors.h"]}
{"id": "C62", "title": "End-to-end error of the mixed-precision pipeline", "statement": "Cutting finite column-major A and B into any blocks, converting each block to the type its occupation limits select, multiplying block-wise and converting back succeeds, and each finite element of the result differs from the exact A*B by at most sum(la*|b| + |a|*lb + la*lb) plus the rounding error of C61, where la, lb are what the chosen block type may lose of the element (nothing for dense double, at most the float threshold for sparse double, at most the double threshold or the float rounding otherwise). With IEEE arithmetic and the default settings this holds for all finite matrices with la, lb <= 2^-23. When all elements are at most 2^50 in magnitude and the inner dimension is at most 2^20 nothing overflows: every element of the result is finite and within the bound; more generally, it is finite whenever the sum of the magnitudes of the products, with the losses added, stays below 2^127. Known violation of the expected NaN propagation, refuted: elements that are NaN are multiplied as if they were 0, and the result is finite. An infinity multiplied by 0 or by an element below the threshold gives 0 block-wise (refuted), NaN or an infinity in the plain product.", "quantifier": "all finite A, B, all partitions, all admissible thresholds, all back ends", "why_tests_cant": "end-to-end numerical bound over all inputs and data-dependent type choices", "anchors": ["include/BlasBooster/Core/BlockedMatrixGenerator.h", "include/BlasBooster/Core/MatrixConverter.h", "include/BlasBooster/Core/Threshold.h", "src/Benchmark/Action_blasbooster_block.h"]}
{"id": "C63", "title": "Blocked matrices written as a list of lists of blocks", "statement": "A blocked matrix built from a nested list of run-time typed blocks, rectangular, with equal heights along each row of blocks and equal widths along each column of blocks, has exactly these blocks, its unblocked dimensions are the sums of the heights and widths, and converting it to a dense matrix gives the matrix put together from the blocks. A list with two different heights in one row of blocks is rejected with an exception in every build, and a rectangular list is rejected only then. Known violations, refuted: different widths within a column of blocks are accepted (the object then cannot be converted), and a row shorter than the first or an empty list is read past its end.", "quantifier": "all block tables, all block types, all heights and widths, debug and release builds", "why_tests_cant": "unbounded tables of heterogeneous blocks and sizes", "anchors": ["include/BlasBooster/Core/DenseMatrix.h 391-419", "include/BlasBooster/Core/Dimension.h 151-177"]}
{"id": "C64", "title": "Eigen and Blaze back ends compute the product of column-major matrices, and Blaze refuses what it cannot handle", "statement": "Multiplying two column-major dense matrices of any compatible size with the Eigen back end gives a matrix of the right size whose (i,j) element is the back end's inner product of row i and column j, without touching memory outside the matrices. With the Blaze back end the same holds when the row counts of all three matrices are multiples of the SIMD width; otherwise the product throws instead of returning a result. Factors whose dimensions do not match are refused: by an assertion with Eigen, by an assertion or an exception with Blaze. Row-major operands are not supported: the adapters silently read them column by column (recorded as a refutation).", "quantifier": "every pair of column-major matrices, every size including empty ones, every inner-product function, debug and release builds, every SIMD width", "why_tests_cant": "The adapters reinterpret raw memory with sizes taken from different matrices, so an error shows only for particular shapes; a test covers some shapes only, and misreading square row-major input gives plausible numbers.", "anchors": ["include/BlasBooster/Core/Multiplication_Eigen.h: MatrixMultFunctor<Eigen>", "include/BlasBooster/Core/Multiplication_Blaze.h: MatrixMultFunctor<Blaze>"]}
{"id": "C65", "title": "Every benchmark action returns the product in the precision its name says, however often it is repeated", "statement": "For every action (native, OpenBLAS, MKL, Eigen, Blaze; double, single, mixed) and any number of repetitions >= 1, the returned double matrix has the size of the product and its (i,j) element is the back end's inner product of row i of A and column j of B, with the factors first rounded to float where the action's name says so. Hence the number of repetitions does not influence the result, exact arithmetic gives the exact product, and with floating-point arithmetic every finite element is within an explicit bound (unit roundoffs, underflow, rounding of the operands) of the real product. With zero repetitions the result is an empty matrix.", "quantifier": "all actions, all sizes and contents, all repetition counts, all summation orders and arithmetics satisfying the usual error model (IEEE 754 shown to satisfy it)", "why_tests_cant": "The claim is a bound over all floating-point inputs and all summation orders a library may use; testing compares a few random matrices.", "anchors": ["src/Benchmark/Action_native_dense.h: Action_native_dense", "src/Benchmark/Action_eigen_sgemm.h: Action_eigen_sgemm", "src/Benchmark/Action_blaze_sdgemm.h: Action_blaze_sdgemm", "src/Benchmark/Action_openblas_sgemm.h: Action_openblas_sgemm"]}
{"id": "C66", "title": "The benchmark's table has one row per pair and action, compared with the first action's result", "statement": "If no action fails, the benchmark prints for every matrix pair, in order, one row per action, in order; the first action's row shows 0 for both norms, every other row the maximum norm and 2-norm of the difference between this action's result and the first action's result of the same pair. With exact arithmetic all norms are 0. If an action throws, the rows printed before stay, no later row appears and the program reports failure. The difference file of a pair contains the difference of the last action only (one file per action is refuted). In every run, whatever fails, the rows printed are exactly those before the first failing action, in order, and the file of a pair holds the last difference reached; lists of matrices that are empty or differ in length, and an empty list of actions, are rejected before anything is printed.", "quantifier": "all lists of matrix pairs and actions, all failure points", "why_tests_cant": "The position of the failure and the number of pairs and actions are unbounded; tests of a main program run one configuration.", "anchors": ["src/Benchmark/benchmark.cpp: main"]}
{"id": "C67", "title": "Sparse matrices behave like values under every sequence of calls", "statement": "Any program that creates, copies, moves, assigns, swaps, resizes, fills, reads and destroys sparse matrices and is legal at the level of values (live objects, indices below the reported sizes, no getSize() after a swap of different sizes) runs without undefined behaviour, every call reports what a memory-free specification says, calls that do not name a matrix do not change what it reports, and if everything is destroyed and no moved-from matrix was copy-constructed, values, keys and offsets are all released. nnz() always counts readable values and keys, sizeOffset() is the number of columns plus one or zero, and zero only for an empty matrix. Known violations, refuted: a moved-from matrix keeps its dimensions but has no offsets and can never be resized again (the failing resize has already changed the dimensions); a default-constructed one has no offset 0; copying a moved-from matrix leaks; swap does not exchange getSize(); a self-move loses the contents.", "quantifier": "all finite programs over any number of sparse matrices, all sizes and contents", "why_tests_cant": "Aliasing, leaks and lost updates depend on the history of the objects; tests run a few fixed sequences.", "anchors": ["include/BlasBooster/Core/SparseMatrix.h: Matrix (copy, move, swap, resize)", "include/BlasBooster/Core/SparseStorage.h: SparseStorage<ValueType,IndexType,false,0>", "include/BlasBooster/Core/Storage.h: Storage<T,false,false,0>"]}
{"id": "C68", "title": "The block-wise benchmark action delivers the product for every repetition count and block size choice", "statement": "Run with limits 0 <= 2*min <= max, the block-wise benchmark action (choose block sizes from both factors, cut both into blocks, multiply, convert back) returns the m x l product of its two matrices, whatever number of repetitions, whatever block sizes are chosen and whatever order equal values are sorted in, provided no block loses an element in conversion; with min 0 or 1 it never fails; limits with max < 2*min are refused with an exception before any matrix is read; without a repetition the result is empty. With IEEE numbers and the default conversion settings, each finite element of the result is within the bound of C62 of the exact product; with min 0 or 1, elements of magnitude at most 2^50 and inner dimension at most 2^20, the action always returns, all elements are finite and within that bound. Known violations: a dimension between 2 and 2*min-1 (2..399 with the default settings) makes the action read uninitialised variables, and the result is only right if the compiler elides the copy of a returned local variable. Known violation, refuted: with NaN elements the result is finite everywhere, as if the NaN elements were 0.", "quantifier": "all matrices, dimensions, limits, repetition counts, thresholds, sort orders and BLAS policies", "why_tests_cant": "block sizes depend on matrix values, on the sort's order of ties and on limits; the uninitialised read and the elision dependence may produce right answers in any given test run", "anchors": ["src/Benchmark/Action_blasbooster_block.h: execute", "include/BlasBooster/Core/BlockSizeGenerator.h", "include/BlasBooster/Core/BlockedMatrixGenerator.h", "include/BlasBooster/Core/DenseMatrix.h: move constructor"]}
{"id": "C71", "title": "Every call through the BLAS interface reaches the right library routine with its arguments unchanged", "statement": "For both libraries (OpenBLAS, Intel MKL) and every BLAS routine offered, calling the interface class with any argument list does exactly what calling the library's routine of that name with the same arguments in the same order does, returns its value and touches nothing else; the four complex dot products return the value the routine stores through its added first argument and leave memory unchanged. The offered classes are exactly the reference BLAS routines with the reference return types, argument order and constness (the sparse routines for MKL only), each declared and defined once, and all definitions compile against the declared prototypes. The code templates guarantee the forwarding for every function list, and the committed files are what the templates generate. Whatever compiles passes as many arguments as the routine takes, each of the declared type, and keeps const: what a function takes as const, the routine called takes as const.", "quantifier": "all routines, libraries, argument lists and memory contents; all function lists given to the templates", "why_tests_cant": "320 generated wrappers with up to 17 untyped-by-role pointers each: a swapped pair of equal types compiles and only misbehaves for some arguments", "anchors": ["src/Interfaces/OpenBLAS/BlasInterface_OpenBLAS.cpp", "src/Interfaces/IntelMKL/BlasInterface_IntelMKL.cpp", "include/BlasBooster/BlasInterface/BlasInterface_OpenBLAS.h", "include/BlasBooster/BlasInterface/BlasInterface_IntelMKL.h", "include/BlasBooster/BlasInterface/Blas.h", "include/BlasBooster/BlasInterface/IntelMKL_SpBlas.h", "include/BlasBooster/BlasInterface/FunctionTypes.h", "include/BlasBooster/BlasInterface/FunctionList.yml", "src/Interfaces/OpenBLAS/BlasInterface_OpenBLAS.cpp.pre", "src/Interfaces/IntelMKL/BlasInterface_IntelMKL.cpp.pre"]}
{"id": "C70", "title": "Settings files return the last successfully written object over every history of reads, writes and crashes", "statement": "After any history of XML/binary reads and writes on any files, including writes that are refused, run out of space or are interrupted by a crash, reading a file under its name and format gives the object of the last write to it that was carried out and reported success (unless a later write failed under way), a missing file is reported by an exception, no read changes a file, a write touches only its own file, and without permission to overwrite no existing file is ever changed. Each operation reports what happened: a read returns the object or throws, a write returns or throws, never both. Known violations: writes are not atomic (a crash, a full device or a name not allowed in XML destroys the previous object), and a failed final flush is reported as success.", "quantifier": "all histories of operations, files, formats, objects, names and interruption points", "why_tests_cant": "crash and failure points and interleavings of operations on several files are unbounded; tests exercise single successful round trips", "anchors": ["include/BlasBooster/Utilities/FileIO.h: readXML, writeXML, readBinary, writeBinary"]}
{"id": "C69", "title": "Times are printed with the accuracy set on their stream, and the benchmark table is laid out alike for all rows", "statement": "In every program of insertions into any number of streams, a time appears in fixed notation with the number of digits last set for durations on that stream (0 if none), padded to the width in force, and leaves notation, alignment and accuracy of its stream and everything about other streams unchanged. In every benchmark table all rows have the same layout (times fixed, norms scientific), and columns start at the heading's positions whenever the fields fit. Known violations: a time leaves its digits behind as the precision of numbers printed later (so the table's norms are shown with the digits meant for times), and a scoped timer leaves its stream in fixed notation with its own digits. A scoped timer prints its label in the width and alignment in force, then the time in fixed notation.", "quantifier": "all sequences of insertions, streams, digits, values, names and table rows", "why_tests_cant": "the format state of a stream is history dependent: the effect depends on all earlier insertions", "anchors": ["src/Benchmark/time.h", "src/Benchmark/time.cpp: operator<<", "src/Benchmark/benchmark.cpp: main", "include/BlasBooster/Utilities/ScopedTimer.h"]}
{"id": "C72", "title": "Run-time dispatch helpers run the functor of the first matching type exactly once", "statement": "Given any type list, predicate and functor (with arbitrary side effects), searching dispatch asks the predicate about the types in list order, each at most once and none after the first yes, and then runs the functor exactly once, on that first matching type; for two objects the first is resolved before the second. If no type matches, an exception is thrown (or an assertion fails in a debug build) and the functor does not run. Dispatching through the precomputed function table on an object's run-time type index runs exactly the same functor as searching. In a release build without exceptions an unlisted object is treated as the last type of the list, or the program is undefined (shown).", "quantifier": "all type lists, all predicates and functors with effects on an arbitrary state, all objects, both failure configurations", "why_tests_cant": "The helpers are templates over unboundedly many type lists and arbitrary user predicates; tests instantiate one list.", "anchors": ["include/BlasBooster/Utilities/exec_if.h:exec_if", "include/BlasBooster/Utilities/exec_if_2dim.h:exec_if_2dim", "include/BlasBooster/Utilities/exec_dyn.h:exec_dyn", "include/BlasBooster/Utilities/exec_dyn_2dim.h:exec_dyn_2dim", "include/BlasBooster/Utilities/TypeChecker.h:TypeChecker", "include/BlasBooster/Utilities/STLHelpers.h:operator<<"]}
{"id": "C73", "title": "Windows over whole programs: shared elements, moves, dangling, rebinding", "statement": "Take any program that creates, copies, moves, assigns, swaps, resizes, fills, indexes and destroys column-major matrices and windows (sub-matrices) into them. (a) If the program keeps to the rules, it runs without undefined behaviour and every result is the one given by plain memory regions and views on them. (b) As long as the window itself is not reassigned, element (i,j) of a window made at (br,bc) is element (br+i,bc+j) of whatever matrix now holds the memory - the original one, or the one it was moved or swapped into: reads agree and writes through one are seen through the other. (c) Once the holding matrix gives its memory up (destruction, resize to another size, assignment) every access through the window is a use after free. (d) Window assignment rebinds, it copies no element. (e) Refuted: a window built by the move constructor is NOT equivalent to its source: it loses its leading dimension, so every column index shows the first column. Whatever a program does after destroying a window, every use of that window is a use of a dead object.", "quantifier": "all element types, all dimensions and window positions, all sequences of operations, debug and release builds", "why_tests_cant": "the number of interleavings of window and matrix life-cycle operations is unbounded; dangling accesses often appear to work; a test of a moved window with one column passes", "anchors": ["include/BlasBooster/Core/DenseMatrix.h: Matrix(other,nbRows,nbColumns,beginRow,beginColumn), Matrix(self&&), operator=, swap, resize, operator()", "include/BlasBooster/Core/Storage.h: Storage<T,false,false,0,true>, Storage<T,false,false,0,false>", "include/BlasBooster/Core/Dimension.h: LeadingDimension", "include/BlasBooster/Core/StripedIterator.h"]}
{"id": "C74", "title": "Run-time typed and blocked matrices are shared handles over whole programs", "statement": "DynamicMatrix is a shared pointer; a two-part matrix and a blocked matrix hold shared pointers. Take any program that constructs, copies, assigns, combines, changes (+=, -=, element writes), converts, cuts and reads them. (a) If only matrices nothing else refers to are changed in place, the program reports exactly what it would if every variable and block were a value of its own, including exceptions and failures. (b) Every handle a program holds stays readable. (c) Calls other than op= and element writes change no existing matrix; results of operators, new and the converter are referred to by nothing else. (d) a op= b changes at most the one matrix a refers to, only if it is dense; it keeps its type, every other holder sees the change, nothing else changes, and an exception changes nothing; two-part, sparse and zero targets are never changed. The new value is the value-level one unless a is itself a part of b. (e) A copied variable, a copied blocked matrix and a block taken out of a blocked matrix stay the same matrix until one of the two is assigned to. (f) Refuted: copies (of variables, blocked matrices, parts) are independent; A -= M is right when A is a part of M (it gives 0 instead of -S).", "quantifier": "all arithmetics, all matrices of all run-time types, all sequences of calls, all aliasing patterns, both build modes, all orders of static initialisation", "why_tests_cant": "aliasing appears only for particular histories of copies and in-place changes; their number is unbounded, and a test that never changes a copied matrix in place sees values", "anchors": ["include/BlasBooster/Core/DynamicMatrix.h: DynamicMatrix", "include/BlasBooster/Core/BinaryFunctors.h: operator+=, operator-= on DynamicMatrix and MultipleMatrix", "include/BlasBooster/Core/MatrixMultExp.h: DynamicMultFunctor", "include/BlasBooster/Core/MultipleMatrix.h", "include/BlasBooster/Core/BlockedMatrix.h", "include/BlasBooster/Core/BlockedMatrixGenerator.h", "include/BlasBooster/Core/MatrixConverter.h", "include/BlasBooster/Core/Multiplication_Native.h: blocked product"]}
{"id": "C75", "title": "Storages of compile-time size inside the object behave like values", "statement": "For stack storages (and for fixed-size sparse storages if none is assigned to another), every sequence of construction, copying, assignment, element access and size queries with indices below the size and value lists not longer than the size runs without undefined behaviour; each storage holds its own values, elements not given are zero, copies are independent, and nothing is allocated. Known violations, refuted: assigning one fixed-size sparse storage to another never changes it; a longer value list is written past the object; == compares addresses; a matrix of run-time dimensions with the on-stack option has no elements at all, so every access is out of bounds and setting all elements does nothing.", "quantifier": "all sizes, all element values, all histories over such storages", "why_tests_cant": "sharing and stale contents show up only in particular histories; the existing test of this storage is disabled", "anchors": ["include/BlasBooster/Core/Storage.h: Storage (primary template)", "include/BlasBooster/Core/SparseStorage.h: SparseStorage (primary template)", "include/BlasBooster/Core/Parameter.h: onStack"]}
{"id": "C76", "title": "Comparisons with the norm and the occupation answer for the contents of that moment", "statement": "isNormLargerThan(x) and isNormSmallerThan(x) are true exactly if the current two-norm is strictly larger, resp. smaller, than x; getOccupation(checker) is the share of the elements in the checker's range, and isOccupationLargerThan/SmallerThan compare it strictly with x. This holds for every program that does not change a matrix after asking it (known violation, refuted: a matrix changed in place after a question keeps giving the old answer). At most one of the two comparisons is true, and neither only if the value equals x. A Zero matrix gives the same answers as a dense matrix of zeros with at least one element, for every range not containing 0 (refuted: a closed range from 0 counts every element of the dense matrix, none of the Zero matrix). Through the run-time type a one-part matrix is compared by its own norm; a two-part matrix throws, fails an assertion or, in a release build, always answers 'not larger' (refuted). With IEEE doubles the occupation is a finite number from 0 to 1 that does not decrease with the number of accepted elements; below 2^52 elements it is 0 only if none is accepted and 1 only if all are. Over IEEE doubles a comparison is true exactly if both numbers are not NaN and the first lies strictly below the second. A one-part matrix with a NaN element is neither larger nor smaller than anything; one with an infinite element and no NaN is larger than every number except NaN and plus infinity and smaller than none.", "quantifier": "all matrices, thresholds, checkers, arithmetics with a linear order, all histories of constructions, copies, moves, changes and questions", "why_tests_cant": "the answers come from caches filled by earlier questions, so they depend on the whole history of copies and changes, and on every threshold", "anchors": ["include/BlasBooster/Core/NormPolicy.h: isNormLargerThan, isNormSmallerThan", "include/BlasBooster/Core/OccupationPolicy.h: getOccupation, isOccupationLargerThan, isOccupationSmallerThan", "include/BlasBooster/Core/ZeroMatrix.h", "include/BlasBooster/Core/DynamicMatrixFunctions.h", "include/BlasBooster/Core/MultipleMatrix.h: isNormLargerThan"]}
{"id": "C77", "title": "Accuracy of norms and of the error the benchmark reports", "statement": "In floating point, the one-norm of an r x c matrix (dense, window, sparse without unused cells, zero) is within factors (1-u)^(rc+1) and (1+u)^(rc+1) of the true one, the two-norm within (1\u00b1u)^(rc+2) plus an underflow term, and the maximum norm is exact; a finite one- or two-norm implies that every element is finite. With IEEE doubles, matrices of at most 2^53 elements below 2^970 (one) or 2^485 (two) have finite norms. The benchmark's reported maximum difference is 0 exactly if both results agree everywhere, is within one rounding of the largest true difference, and for two actions multiplying the same matrices it is at most (1+u) times the sum of the two actions' rounding bounds at some element; the reported two-norm of the difference obeys the norm bound with one more rounding. Known violations, refuted: a result consisting of NaN only is reported with maximum difference 0; squares overflow for a matrix whose two-norm is representable (one element 2^512). Over all elements: the one- and two-norm of a dense matrix or window, or of any one-part matrix, are NaN exactly if some element is, infinite if none is NaN and one is infinite; the maximum norm is never NaN but the largest absolute value of the elements that are not NaN. The maximum difference the benchmark reports is never NaN, and 0 exactly if every two elements are equal finite numbers or cannot be compared (one is NaN, or both are the same infinity); the two-norm it reports is NaN exactly if some two elements cannot be compared. The two-norm of a blocked matrix of one-part blocks is NaN exactly if some element is, infinite if none is NaN and one is infinite; the two-norm and the maximum norm of a matrix in two parts are those of the sums of its elements, so that opposite infinities in the parts count as NaN.", "quantifier": "all dimensions, all element values including NaN and infinities, all matrix representations, all summation lengths", "why_tests_cant": "rounding, overflow and NaN depend on every element value and their order; tests use small integers for which the arithmetic is exact", "anchors": ["include/BlasBooster/Core/Norm.h: NormOneFunctor, NormTwoFunctor, NormMaxFunctor", "src/Benchmark/benchmark.cpp: norm output", "include/BlasBooster/Core/BinaryFunctors.h: operator-"]}
{"id": "C78", "title": "MKL sparse times sparse delivers the product for row-major matrices only, and not for all of them", "statement": "Multiplying two square row-major sparse matrices with the IntelMKL backend yields a well-formed row-major sparse matrix holding A*B, with an element stored exactly where stored elements of A and B meet (also when they cancel). For square column-major matrices, the library's default, the same call yields B*A instead; for a column-major A with more rows than columns, or whenever the product has more rows than columns, no call completes without running past an array; and a well-formed result implies a square product. For rectangular row-major operands with a square product (A m x n, B n x m) the call yields A*B exactly if every stored element of A lies in a column below m and no pair of stored elements meets in a column from n on; otherwise (and for any shape of the product) it reads or writes past an array, because the second call exchanges two dimensions.", "quantifier": "all sparse operands with fewer than 2^31-1 cells, both orientations, all element types and all ways the routine may sum a list of products, any previous contents of the result", "why_tests_cant": "The upstream test of this path is commented out; a test with symmetric or diagonal matrices cannot tell A*B from B*A, and out-of-bounds reads depend on the allocator.", "anchors": ["include/BlasBooster/Core/Multiplication_IntelMKL.h: MultiplicationFunctor<Sparse,Sparse,Sparse,IntelMKL>", "include/BlasBooster/Core/SparseMatrix.h: resize"]}
{"id": "C79", "title": "Recorded occupation counts do not change what a conversion produces", "statement": "A matrix keeps every occupation count it was ever asked for, keyed by the value checker, and the converter asks the same matrix several such questions while it chooses a target type and sizes a sparse target. As long as the recorded counts are those of the current contents (whatever checkers they belong to and in whatever order they were asked), converting gives exactly the matrix, exception or failure that counting afresh gives, and the counts recorded on the way are again true. This holds over any linearly ordered numbers, and over IEEE doubles for any checkers and thresholds that are not NaN; in particular for every block of a matrix that is cut, whose window starts without recorded counts. It does not hold if the contents were changed after a question (the matrix is turned into one without storage, or a sparse target is overrun), nor for a NaN threshold.", "quantifier": "every source matrix, window, threshold set, list of recorded counts, build mode, element value (NaN and infinities included), number type satisfying the stated order", "why_tests_cant": "the answer depends on the whole history of questions and on the order of the keys for all pairs of thresholds", "anchors": ["include/BlasBooster/Core/OccupationPolicy.h: getOccupation, getNbSignificantElements", "include/BlasBooster/Core/MatrixConverter.h: isConvertible, convert", "include/BlasBooster/Core/BlockedMatrixGenerator.h", "include/BlasBooster/Core/AbsoluteValueRangeChecker.h: operator<"]}
{"id": "C80", "title": "Printing matrices and numbers to streams in any order", "statement": "In any program that inserts matrices (of known or run-time type), numbers, texts, manipulators and fullprint/shortprint into any number of streams, every insertion of matrices whose elements are set succeeds, and the format of a stream depends only on its own insertions. A dense matrix of at most 100 x 100 is always shown in scientific notation with ten digits, whatever notation and precision are in force, in columns one character wider than the longest element; on a stream with otherwise default settings this is exactly the text of C58. Whether name and dimensions are shown is decided by the last fullprint/shortprint on that stream. Sparse matrices and numbers use what is in force, and a dense matrix leaves its scientific notation and ten digits behind: a sparse or two-part matrix printed again, or after a dense one, looks different; with showpos the elements of a row run together. A dynamic matrix is printed as the matrix it holds, a two-part matrix as its first and then its second part with the stream state carried over, a null pointer as the text 'No Matrix found.'. A text inserted with a width is filled up to that width with the fill character on the side the alignment leaves, and is never cut.", "quantifier": "every program (list of insertions on several streams), initial stream formats, matrices with set elements, number rendering, fill character, alignment, build mode", "why_tests_cant": "the text depends on the whole history of the stream", "anchors": ["include/BlasBooster/Core/MatrixIO.h: fullprint, shortprint, MatrixPrintFunctor, operator<<, DynamicMatrixPrintFunctor"]}
{"id": "C81", "title": "What is left when memory runs out", "statement": "If an allocation fails (std::bad_alloc) inside a constructor of a storage, a dense or a sparse matrix, no object is created, nothing is leaked and all other objects are as before; the same holds for resizing or assigning to a storage that holds no memory, and for reloading a storage with the same number of elements. A program in which only such calls fail behaves exactly as the program without the failed calls. Moves, swaps, destruction and element access never allocate. Storages of fixed size allocate in constructors only, so any of their programs survives any failure. What does not hold: after a failed resize of, or assignment to, an object that holds memory, that object still owns the memory it has just released, so its destruction releases it a second time; a matrix already reports its new dimensions; a failed load has already changed the size. At any point, memory that fails where none is needed goes unnoticed: a program in which no call reports bad_alloc ends in the state, and with the answers, of the same program with memory (heap storages, dense and sparse matrices).", "quantifier": "every program over storages (any interleaving of constructors, assignments, moves, swaps, resizes, loads, accesses, destructions), every choice of which allocations fail; every state, sizes and failing member array for the matrices", "why_tests_cant": "the failing allocation can be any one in any history; tests do not run out of memory", "anchors": ["include/BlasBooster/Core/Storage.h: Storage constructors, resize, operator=, load", "include/BlasBooster/Core/Memory.h: allocate, deallocate", "include/BlasBooster/Core/DenseMatrix.h: resize, operator=", "include/BlasBooster/Core/SparseMatrix.h: resize", "include/BlasBooster/Core/SparseStorage.h: SparseStorage, resize"]}
{"id": "C82", "title": "Threads with storages of their own do not influence each other", "statement": "If several threads use heap storages of their own (construct, copy, move, assign, resize, fill, read, write, swap, destroy), then for every order in which their calls happen no call has undefined behaviour, every thread gets the reports and ends with the contents its program gives when it runs alone, and when all threads have destroyed their storages all memory has been released.", "quantifier": "every number of threads, every legal program of each thread, every interleaving of their calls", "why_tests_cant": "The number of interleavings grows exponentially and a scheduler shows only a few of them.", "anchors": ["include/BlasBooster/Core/Storage.h: Storage<T,DynamicSize,OnHeap>"]}
{"id": "C83", "title": "A const matrix shared by threads: answers and data races", "statement": "When threads share one const matrix and ask it for its norm, its occupation or its elements, every schedule of the single accesses gives every thread the right answers within five steps per question; but the queries write to mutable members without synchronisation, and a data race is reachable exactly if two threads ask for the norm and it was not asked before, or two threads ask for occupations and (unless the map's operator[] only reads for a key that is present) or one of them asks a range not asked before. So two threads that query a new const matrix, or convert it to a sparse one, race. Over IEEE doubles all this holds for checkers that name no NaN.", "quantifier": "every contents, every number of threads, every list of questions per thread, every schedule of single accesses, every consistent state of the caches", "why_tests_cant": "A race depends on the schedule and on what the compiler makes of it; tests run few schedules.", "anchors": ["include/BlasBooster/Core/NormPolicy.h: getNorm, updateNorm", "include/BlasBooster/Core/OccupationPolicy.h: getNbOfSignificantElements", "include/BlasBooster/Core/SparseMatrix.h: Matrix(Matrix<Dense,T2,P2> const&, ValueChecker const&)"]}
{"id": "C84", "title": "Tracked scopes in several threads", "statement": "With tracking enabled, under every schedule the recorded time and count of an identifier stay between their initial value and what all scopes together are due, and are exact for an identifier that only one thread uses; a data race is reachable exactly if two threads leave scopes with the same identifier, and then any number of scopes may go uncounted.", "quantifier": "every number of threads, every list of scopes per thread, every schedule of single accesses", "why_tests_cant": "Lost updates depend on the schedule.", "anchors": ["include/BlasBooster/Utilities/Tracker.h: TrackerRegister::add, Tracker", "src/Utilities/tracker.cpp"]}
