# Formal model of aristos-d/gsb in Rocq (Coq 8.16.1)

## 1. What is modelled, and how

The library is header-only C++ (sparse matrix formats, conversions, SpMV kernels
with OpenMP, file readers and writers) plus small tools and drivers.  The model is
a set of executable Gallina functions, one per C++ function, in `rocq/theories`:

| file | models |
|---|---|
| `Base.v` | how C++ is read: outcomes (`Ok`, `Undef`, `Abort` for a failed assert, `Diverge`), arrays with uninitialised cells, counted loops, index wrap-around |
| `Par.v`, `ParLib.v`, `ParCells.v`, `Performs.v` | OpenMP: programs over a shared heap, interleaving semantics, data races, the theorem that separated footprints give one result on every schedule |
| `SortSpec.v`, `Sort.v`, `SortProof.v` | dep/pss |
| `Words.v`, `WordsProof.v` | src/common.cpp, bit_interleave, pick_block_size |
| `Spec.v` | the mathematics: entries of a coordinate matrix, matrix-vector product |
| `Utils.v`, `UtilsProof.v`, `Count.v`, `Groups.v` | include/utils.h, include/generic/gsb.h |
| `Kernels.v`, `KernelsProof.v` | include/spmv/*.h and include/spmv/omp/*.h for the plain formats |
| `Csr.v`, `CsrProof.v` | include/matrix/csr.1.h, csr.2.h |
| `Simple.v`, `SimpleProof.v`, `DenseProof.v` | coordinate formats, Cswr, CompRowCsr, Dense, the block formats BlockCoo, BlockCsr, Coo |
| `Gsb.v`, `GsbProof.v` | include/partition.h, include/spmv/omp/gsb.h |
| `Csbr.v`, `BlocksProof.v`, `CsbrProof.v`, `Csbr2Proof.v`, `Csbr3Proof.v`, `Csbr3Chunk.v` | include/matrix/csbr.h, csbr.2.h, csbr.3.h, include/spmv/omp/csbr.3.h |
| `Cgbr.v`, `CgbrProof.v`, `Cgbr2Proof.v`, `Cgbr3Proof.v` | include/matrix/cgbr.h, cgbr.2.h, blocks.h |
| `Bcsr.v` | include/matrix/bcsr.h |
| `Permute.v`, `PermuteProof.v`, `Expand.v` | include/permute.h, include/expand.h |
| `Io.v`, `IoProof.v` | include/io/input.h, include/io/output.h (binary files) |
| `BlockIo.v`, `BlockIoProof.v`, `BlockIo2Proof.v` | include/io/blocked.h, write_bin_blocked |
| `Text.v`, `Mm.v`, `TextProof.v`, `MmProof.v`, `Mm2Proof.v` | scanf/printf at character level, dep/mm_io, read_mm_COO, write_mm_COO |
| `Tools.v`, `ToolsProof.v` | src/tools/*, include/test/utils.h |
| `Choice.v`, `ChoiceProof.v` | the single-precision decisions: include/matrix/cgbr.h:153-177 and 213-239, include/matrix/blocks.h:90-118 |
| `DupProof.v` | repeated positions in dense blocks (Cgbr.v) |
| `ParSeq.v`, `Drivers.v`, `DriversProof.v` | include/test/bench.h, include/common.h, the timing summaries of src/common.cpp, src/drivers/* |
| `Rounding.v`, `RoundingProof.v`, `Ieee.v` | the error of the products when values round; IEEE float and double with Flocq |
| `Ledger.v`, `LedgerProof.v` | allocation and deallocation of include/matrix, io/blocked.h, partition.h |
| `Properties_*.v` | the property theorems (`Cnn_...`), the small specifications they are stated with, and examples (`Cnn_ex...`) that meet their hypotheses |
| `Assumptions.v` | `Print Assumptions` over all claimed theorems |

Conventions

* **Undefined behaviour is an outcome.**  Out-of-bounds access, reads of
  uninitialised cells, division by zero, mismatched deallocation are `Undef`;
  a failed `assert` is `Abort` (the Makefile never defines NDEBUG); running out of
  loop fuel is `Diverge`.  A positive theorem says `= Ok ...`, so it excludes all.
* **Index types** are unsigned with `itW` (IT) and `sitW` (SIT) values, both
  parameters; data-dependent arithmetic wraps explicitly (`wadd`, `wmul`, ...),
  conversions to SIT truncate explicitly (`swrap`).  IT is assumed at least as wide
  as `int`.
* **Values** have an arbitrary type `T` with arbitrary `0`, `+`, `*` (class
  `Scalar`, no laws): statements about evaluation *order* are then bit-exact for
  floats.  Statements "= y + A x" are over a commutative semiring.
* **Parallelism.**  `#pragma omp parallel for` is a fork of all iterations, `task`
  .. `taskwait` is a fork.  Theorems about kernels conclude `all_schedules`:
  no infinite execution, no fault, no data race in any reachable state, and the one
  final heap.
* **Read-only inputs** of a kernel (matrix arrays, x) are values; memory that is
  written (y, temporaries, arrays being sorted) is in the heap.
* `Triplet` and `Element` are one record (`row`, `col`, `val`, `blk`); `blk` of a
  triplet is unused.

## 2. Trusted base

* Coq's kernel; std++ (library used for lists, finite maps) and, for C89 only, Flocq (IEEE
  floating point), whose lemmas are checked by the same kernel; what `Print Assumptions` prints for the theorems (section 4).
* The reading of the C++ code: each definition cites file and lines.
* std::stable_sort, std::sort, std::upper_bound, std::lower_bound,
  std::partial_sum, malloc/new behave as specified (upper/lower_bound and
  partial_sum are modelled as code, stable_sort by specification).
* Data-race-free programs behave sequentially consistently (C++/OpenMP memory
  model); `omp task`/`taskwait`/`parallel for` have fork-join semantics.
* Not modelled: performance, the clock (its readings are arbitrary integers), printed
  text other than the benchmark summaries, NUMA/affinity, exceptions
  from `new` (matrix values are abstract; C88 takes any rounding arithmetic, C89 IEEE float and
  double: round to nearest even, no contraction to fused operations),
  the square-root estimate of `pick_block_size` (an arbitrary parameter; the other
  single-precision decisions are modelled with IEEE rounding in Choice.v: round to
  nearest even, 24 bits, no fused operations, exponents never out of range),
  `include/matrix/sgsb.h` (does not compile: it names a type that
  does not exist) and other code that cannot be instantiated.

## 3. Properties

<!--T-->
| id | property | model | how | theorems in |
|---|---|---|---|---|
| C01 | next_power_of_two returns the least power of two that is at least n | Words.v | N arithmetic with explicit mod 2^64; bit-smearing lemma by N.log2 / testbit | P_Utils.v |
| C02 | highest_bit_set is floor(log2) for each of its four overloads | Words.v | loop over shift constants on N; invariants on 2^k <= v < 2^(k+1) | P_Utils.v |
| C03 | bit_interleave is an injective, coordinate-wise monotone Morton code on 16-bit indices | Words.v | testbit characterisation of the mask-and-shift steps; collision witness above 2^16 | P_Utils.v |
| C04 | pick_block_size returns 0 or a power of two strictly smaller than both dimensions | Words.v | exact model of the bit loops, the floating-point estimate is an arbitrary parameter; case analysis and invariants | P_Utils.v |
| C05 | The block size picked automatically makes constant-size blocking divide by zero on small matrices | Words.v, Utils.v | witness sizes give 0, blocking then yields Undef DivByZero; otherwise C08 | P_Utils.v |
| C06 | index_to_blockindex returns the unique block containing an index | Utils.v | search invariant over any non-decreasing offset array | P_Utils.v |
| C07 | size_to_offset is the exclusive prefix sum of the block sizes | Utils.v | induction on the prefix sum | P_Utils.v |
| C08 | Constant-size blocking partitions the index space with no gaps | Utils.v | arithmetic on the generated offsets, loop invariant | P_Utils.v |
| C09 | parallel_stable_sort sorts, permutes and is stable on every input, whatever the cut-offs | Sort.v | model of the merge sort as heap program, proved equal to the stable insertion sort; uniqueness of the stable sort | P_Utils.v |
| C10 | The parallel sort has no data race and one result under every schedule | Sort.v, Par.v | footprints of the tasks are separated; all_schedules theorem | P_Utils.v |
| C11 | Each documented element order is the one produced | Utils.v | each comparator is shown a strict weak order, then C09 | P_Utils.v |
| C12 | sort_triplets_blocks reads past the end of its array for every matrix | Utils.v | the model yields Undef OutOfBounds for every array | P_Utils.v |
| C13 | count_blocks and count_nnz_rows count distinct blocks/rows of a grouped array | Utils.v | induction on the array | P_Utils.v |
| C14 | Block ids are unique per block | Utils.v | div/mod uniqueness; collision witness without the no-overflow hypothesis | P_Structure.v, P_Utils.v |
| C15 | COO SpMV adds A*x to y, for every element order | Simple.v, Kernels.v | loop invariant, semiring algebra, Permutation | P_Simple.v |
| C16 | Converting between the coordinate formats preserves the elements | Simple.v | loop invariant | P_Simple.v |
| C17 | CSR construction yields a well-formed CSR structure with the same entries | Csr.v, Count.v | counting lemma for row_ptr | P_Simple.v |
| C18 | CSR SpMV computes y + A x on every schedule | Csr.v, Kernels.v | kernel footprint per row; row sums | P_Simple.v |
| C19 | CSR, CSR2, serial and parallel kernels are bit-identical | Csr.v, Kernels.v | all kernels equal the same fold per row | P_Simple.v |
| C20 | Cswr (wide rows) SpMV computes y + A x when the width fits the short index | Simple.v | wide rows as key; footprint per wide row | P_Simple.v |
| C21 | Cswr is wrong for widths beyond the short index range | Simple.v | general theorem for any width (rows cut), witness above the short range; width 0 gives DivByZero | P_Simple.v |
| C22 | Compressed-row CSR construction has undefined behaviour | Simple.v | Undef for every input | P_Simple.v |
| C23 | Compressed-row SpMV kernel computes y + A x on well-formed input | Simple.v, Kernels.v | kernel over any well-formed structure | P_Compressed.v, P_Simple.v |
| C24 | Dense conversion and SpMV agree with A when no coordinate repeats | Simple.v, Kernels.v | loop invariant on cells, footprint per row | P_Simple.v, P_Structure.v |
| C25 | Dense conversion of duplicate coordinates keeps only the last one | Simple.v | last entry wins, for every matrix; witness of a different product | P_Simple.v |
| C26 | Small-index COO blocks detect indices that do not fit | Simple.v | Abort characterised exactly; otherwise indices exact | P_Simple.v |
| C27 | Small-index CSR blocks truncate wide columns silently | Simple.v | proved under the range hypothesis, refuted without | P_Simple.v |
| C28 | Csbr construction and SpMV compute y + A x on every schedule | Csbr.v, Gsb.v | constructor invariants, block kernel performs the block's fold, balanced and chunk kernels | P_Blocked.v, P_Structure.v |
| C29 | Csbr2 construction and SpMV compute y + A x on every schedule | Csbr.v, Gsb.v | same | P_Blocked.v, P_Reuse.v, P_Structure.v |
| C30 | Csbr3 construction stores every element in the block its coordinates name | Csbr.v | constructor invariants | P_Blocked.v |
| C31 | Csbr3 chunked SpMV is right on full block rows and overruns y on a ragged last one | Csbr.v | induction over the recursion on full rows; on a ragged row no step sequence completes | P_Blocked.v |
| C32 | Bcsr construction uses a block number before assigning it | Bcsr.v | Undef for every input; a value for the variable never helps when two blocks are empty | P_Bcsr.v, P_Structure.v |
| C33 | Cgbr SpMV computes y + A x whatever per-block format is chosen | Cgbr.v, Gsb.v | same as C28 with arbitrary block choice | P_Cgbr.v, P_Structure.v |
| C34 | Cgbr2 SpMV computes y + A x whatever the block factory chooses | Cgbr.v, Gsb.v | same with arbitrary factory and flag | P_Cgbr.v |
| C35 | Partitioning a block row covers every block exactly once, in order | Gsb.v | loop invariant on the pushed boundaries | P_Blocked.v, P_Structure.v |
| C36 | Partitioned chunks carry a bounded load | Gsb.v | same, with accumulated load | P_Blocked.v, P_Structure.v |
| C37 | partition_blockrow returns one more than the number of chunks | Gsb.v | computed for every input | P_Blocked.v |
| C38 | The recursive chunk kernel is race-free and equals sequential execution under every schedule | Gsb.v, Par.v | induction over the recursion, footprints with private temporaries | P_Blocked.v |
| C39 | Balanced block SpMV gives bit-identical results on every run | Gsb.v | balanced kernel equals row-wise fold, no algebraic laws | P_Reuse.v |
| C40 | All formats agree bit for bit on matrices whose blocks are walked in column order | Csr.v, Simple.v, Csbr.v, Gsb.v | all formats equal the stable sort by column of each row | P_Reuse.v |
| C41 | Conversions to CSR/Csr2/Cswr/Csbr/Csbr2 leave the source coordinate matrix a permutation of itself | Csr.v, Simple.v, Csbr.v | constructors return the mutated source: Permutation up to block ids | P_Reuse.v |
| C42 | Conversion to Cgbr changes the source matrix | Cgbr.v | mutated source characterised; different from the original | P_Cgbr.v |
| C43 | Cgbr statistics add up | Cgbr.v | loop invariant | P_Cgbr.v |
| C44 | Repeated SpMV accumulates | Csr.v | iterated kernel, semiring algebra | P_Simple.v |
| C45 | Blocked formats reject an empty matrix by undefined behaviour | Utils.v, Csbr.v | Undef for nnz = 0 | P_Cgbr.v, P_Reuse.v |
| C46 | invert_permutation inverts | Permute.v | footprints are distinct cells exactly for injective p | P_Permute.v |
| C47 | Permuting a matrix and its vectors commutes with SpMV | Permute.v | reindexing of sums | P_Permute.v |
| C48 | Permuting by p and then by its inverse restores the matrix | Permute.v | pointwise | P_Permute.v |
| C49 | expand_block_size returns the least power of two that holds every block | Expand.v | maximum, then C01 | P_Expand.v |
| C50 | Expansion is injective, order preserving and keeps blocks | Expand.v | offset arithmetic | P_Expand.v |
| C51 | Binary .bin files round-trip | Io.v | byte-level encoding, induction on records | P_Io.v |
| C52 | A truncated .bin file is rejected, unless three times its element count wraps | Io.v | prefix argument on byte lists | P_Io.v |
| C53 | read_bin_CSR reads row-sorted files right and others silently wrong | Io.v, Csr.v | reader loop invariant | P_Io.v |
| C54 | The three-file reader restores the dimensions only when the last row and column are occupied | Io.v | reader loop invariants with maxima; Undef for the generic variant | P_Io.v |
| C55 | The three-file reader closes one file twice and leaves one open | Io.v | file-handle bookkeeping in the model | P_Io.v |
| C56 | Blocked .block files round-trip into Csbr and Csbr2 | BlockIo.v, Csbr.v | reader loop simulates the constructor loop | P_BlockIo.v |
| C57 | Reading a .block file as Cgbr loses its first record | BlockIo.v, Cgbr.v | reader loop simulates the constructor loop on the file without its first record, with an empty block in front when the first block had only that record | P_BlockIo.v |
| C58 | Raw arrays round-trip; trailing bytes are ignored | Io.v | byte-level | P_Io.v |
| C59 | Matrix Market banners round-trip | Mm.v, Text.v | case analysis over type codes, case-map lemma on words | P_Mm.v, P_Mm3.v |
| C60 | Reading a banner overflows its buffers exactly on a long word | Mm.v, Text.v | exact characterisation by the words of the first line | P_Mm.v |
| C61 | Reading the size line terminates unless fewer than three numbers precede a character that cannot begin a number | Mm.v, Text.v | scanner lemmas; loop state repeats, Diverge for every fuel; fuel monotonicity | P_Mm.v |
| C62 | General and symmetric Matrix Market files are read as the matrix they denote, others not | Mm.v, Text.v | loop invariant over the entry list at character level; %lg is a parameter | P_Mm2.v |
| C63 | Writing and reading Matrix Market text preserves the structure and rounds the values | Mm.v, Text.v | printing and scanning decimals are inverse; %f and %lg are parameters | P_Mm2.v |
| C64 | mm_write_banner and mm_write_mtx_crd_size always report failure | Mm.v | computed, with the text shown right by reading it back | P_Mm2.v |
| C65 | File format dispatch is by suffix | Mm.v | strings as lists | P_Mm2.v |
| C66 | one2zero converts all indices of a file or none, and stops at the first bad file | Tools.v | loop invariant over files and items; names in a 128-byte buffer | P_Tools.v |
| C67 | check_results reports equality exactly | Tools.v | loop invariant | P_Tools.v |
| C68 | Which formats release what they allocate, and how | Ledger.v | allocation ledger per format; ownership logic | P_Ledger.v |
| C69 | Blocking and writing a matrix keeps its product | Tools.v, Io.v, BlockIo.v | composition of C14, C11, C56 | P_Tools2.v |
| C70 | double2float converts every value of a file and nothing else | Tools.v | loop invariant over files | P_Tools.v |
| C71 | The permute tool relabels index files by a permutation or by its inverse | Tools.v, Permute.v | composition of C46, C48, C58 with the name buffer | P_Tools3.v |
| C72 | The convert tool writes the matrix sorted by column, given a sound reader | Tools.v | composition of C11, C51, C63 | P_Tools3.v |
| C73 | The sort tool sorts text files by row; its other uses are undefined as written | Tools.v | composition of C11, C63, C58 | P_Tools3.v |
| C74 | The prepare and expanded tools keep the product through relabelling, blocking and expansion | Tools.v | composition of C71, C11, C69, C50 | P_Tools4.v |
| C75 | Building Csbr from struct-of-arrays coordinates leaves its arrays | Csbr.v, Utils.v | check passes, then C12 | P_Bcsr2.v |
| C76 | A Bcsr matrix read from a .block file has blocks without rows | BlockIo.v, Bcsr.v | invariant over the reader loop for any file; simulation of the constructor for written files | P_Bcsr2.v |
| C77 | The default block size is the largest power of two that meets its constraints | Words.v | bit-level specification of the loop, powers of two | P_Utils.v |
| C78 | What the benchmark prints describes the measured times | Drivers.v | sorted list facts, counting, exact rationals | P_Drivers.v |
| C79 | The benchmark harness multiplies safely and repeatably | Drivers.v, ParSeq.v | composition of all-schedules results over sequencing and loops | P_Drivers.v |
| C80 | The CSR and wide-row drivers benchmark the matrix in the file | Drivers.v | composition of C51/C62, C17-C20, C79 | P_Drivers.v |
| C81 | The blocked drivers pick a usable block size, except for small matrices | Drivers.v, Words.v | composition of C04/C77, C28-C34, C79 | P_Drivers.v |
| C82 | The blocked driver ignores the block-size files it asks for | Drivers.v | case analysis on the argument count | P_Drivers.v |
| C83 | The comparison drivers benchmark the same matrix in two formats | Drivers.v, Permute.v | composition of C47, C17, C34, C79 | P_Drivers.v |
| C84 | A Cgbr matrix of the built configurations multiplies right for every input, repeated positions included | Choice.v, Cgbr.v | error bounds for rounding on rationals; composition with C33 | P_Choice.v |
| C85 | The default block factory stores a block in the smallest format | Choice.v, Cgbr.v | error bounds, exactness below 2^23; composition with C34 | P_Choice.v |
| C86 | A Cgbr matrix is balanced exactly when no block row has more than twice the average load | Choice.v, Cgbr.v | error bounds; counting the elements of block rows | P_Choice.v |
| C87 | A dense block keeps one of several elements at a position | Cgbr.v | the kept elements of the dense blocks as a matrix of their own | P_Choice.v |
| C88 | Products of floating-point matrices are as accurate as the order of additions allows, in every format | Rounding.v, all kernels | induction over the additions of a row and over the tree of chunks | P_Rounding.v |
| C89 | Float and double products: error at most n 2^-23 of |y|+|A||x|, exact for integers, not identical between formats | Ieee.v (Flocq) | Flocq's error bounds; concrete floats for the refutation | P_Ieee.v |
| C90 | A block too large for the short index type makes Cgbr abort, but makes Cgbr2 and Csbr3 multiply by a different matrix | Cgbr.v, Csbr.v | COO blocks without the size bound; a run that follows another until an assertion; kernels over what each block keeps | P_Wide.v |
| C91 | Indices outside the vectors: the coordinate products and the readers check nothing | Simple.v, Io.v, Mm.v | every complete run needs a cell that is never live, progress, termination; readers' round trips without the range hypothesis | P_Range.v |
| C92 | Indices outside the matrix: the construction of CSR | Csr.v, Kernels.v | counters with the wrapped increment; CSR kernels over arbitrary row slices; doomed runs | P_Range.v |
| C93 | Printing binary files | Pprint.v | loops that print items of a written file; loops at the end of a file; case analysis of the cut | P_Pprint.v |
| C94 | Products at the same time | Par.v, Kernels.v, Gsb.v (all product kernels) | frame lemma for programs that allocate only below their result buffer; side-by-side lemma; induction on the number of products; first write of a program for the race | P_Conc.v |
| C95 | The comparison program | Result.v (main, line by line), Tools.v, Drivers.v, all formats | reads-before-writes invariant of a cell without a value; frame of C94 for the two vectors; C41, C33, C34, C67 for each part | P_Result.v |
| C96 | Indices outside the matrix: the blocked formats | Csbr.v, Cgbr.v, Utils.v (block numbers of any index), Drivers.v | invariant of the constructor loops with no assumption on the indices: until an assertion fails, every element seen lies inside | P_Outside.v |
| C97 | The program that compares block formats on files | BlockTest.v | Hoare rules for the ledger of allocations, induction over the files | P_BlockTest.v |
| C98 | More blocks than the index type can number | NumberProof.v, Properties_Number.v | block numbers modulo the width; invariant of the scans over any list whose numbers decode to existing blocks: every element accepted so far lies in its decoded block, so acceptance of all implies that the numbers did not wrap; case distinction proved complete | P_Number.v |
| C99 | Unusable input is refused, and no tool changes other files than its own | RefuseProof.v, Properties_Refuse.v | inversion of every step of a completed run; a name that is made at all ends in the suffix, for any buffer contents | P_Refuse.v |
| C100 | A block of triplets with short indices holds its elements, but is in Morton order only for small indices | BlockCoo2.v, Properties_BlockCoo2.v | specification of the sort; the code modulo 2^(2h) computed bit by bit | P_BlockCoo2.v |
| C101 | What the printing functions show | Show.v, Properties_Show.v | loops that append lines; a text determines what was printed, because digits, separators and line ends delimit it; sums of chunk sizes by induction | P_Show.v |
| C102 | A text file that breaks off or holds something else than numbers is read, with code 0, as another matrix | Mm3Proof.v, Properties_Mm3.v | the two loops run through the complete entries to a known state; then induction on the repetitions, or one more step; a file of numbers is cut into complete entries and a broken one by induction | P_Mm3.v |
| C103 | A binary file with a row number outside the matrix, or cut in its rows, is read as another compressed matrix or corrupts memory | Properties_Csrfile.v | invariant of the loop over the row section, for any list of rows the loop takes the file to hold; counters and prefix sums of C92 with the last index wrapping to cell 0 | P_Csrfile.v |
<!--/T-->

## 4. Axioms

`rocq/theories/Assumptions.v` puts the theorems named in MANIFEST.json in two tuples and
runs `Print Assumptions` on each.  For the first, which is every theorem but those of C89,
it prints `Closed under the global context`: no axiom of ours, of the standard library or
of std++ is used.  For the second, the theorems of C89 (IEEE numbers as Flocq defines
them), it lists the standard library's axioms of the real numbers and classical logic:

* `ClassicalDedekindReals.sig_not_dec`, `ClassicalDedekindReals.sig_forall_dec`
* `FunctionalExtensionality.functional_extensionality_dep`
* `Classical_Prop.classic`

(A scan of all loaded modules also lists the fields of the module type
`Coq.ssr.ssrunder.Under_rel`, which is loaded with ssreflect by std++ and is not used by any
of the theorems.)

## 5. How to read the claims

* A theorem whose name ends in `_refuted` shows that an expectation a user would naturally
  have is false of the code: it gives the failing input, or shows undefined behaviour for
  every input of the stated class.  The property's statement in `properties.jsonl` is the
  precise true claim, so a property with `_refuted` theorems is a proved statement about a
  defect; the parts that do hold are proved beside it.
* Theorems come in two strengths: with arbitrary value arithmetic (no laws; hence valid bit
  for bit for floats), stated with `spmv_by_column` or `spmv_in_order` (the order in which
  products are added), and with `exact_arith` (a commutative semiring), stated with
  `y_plus_Ax`.
* Parameters stand for what is outside the model: `%lg` scanning and `%f` printing of values
  (`scan_g`, `print_f`), the float comparisons which pick a block format (`choose`; C84-C86 put the code's own
  comparisons in its place), the
  contents of uninitialised variables (`garbage`, `balanced`, `counter0`), the platform's
  tolerance for double close and mismatched free (`forgiving`, `strict`).

## 6. What is not modelled

* `include/matrix/sgsb.h` (does not compile), `spmv` of Csbr3 and Bcsr (do not compile when
  instantiated), `read_bin_CSR` for Csr2 (dead code that does not compile),
  `Coo_to_Csr` on three arrays (cannot be instantiated).
* `print_info`, timers, `include/test/threads.h`, `src/test/visual.cpp`, `src/test/structs.cpp`.
* Memory exhaustion, except for the fallback of the parallel sort.
* Integer types other than unsigned index types.
