{"id": "C01", "title": "next_power_of_two returns the least power of two that is at least n", "statement": "For every 64-bit n with 1 <= n <= 2^63, next_power_of_two(n) is a power of two, is >= n, and no smaller power of two is >= n. For n = 0 and for n > 2^63 it returns 0.", "quantifier": "every unsigned 64-bit argument", "why_tests_cant": "2^64 inputs; the interesting ones are the boundaries around each power of two and the wrap above 2^63", "anchors": ["src/common.cpp:next_power_of_two"]}
{"id": "C02", "title": "highest_bit_set is floor(log2) for each of its four overloads", "statement": "For every v > 0, highest_bit_set(v) = k with 2^k <= v < 2^(k+1) for the 64-bit and 32-bit unsigned overloads; it is 0 for v = 0; the signed overloads return -1 exactly for negative arguments and agree with the unsigned ones otherwise.", "quantifier": "every 32-bit and 64-bit argument, signed and unsigned", "why_tests_cant": "2^64 inputs", "anchors": ["src/common.cpp:highest_bit_set"]}
{"id": "C03", "title": "bit_interleave is an injective, coordinate-wise monotone Morton code on 16-bit indices", "statement": "For row, col < 2^16 bit 2k of the result is bit k of row and bit 2k+1 is bit k of col (so the pair can be recovered), and the result grows strictly with col for a fixed row and with row for a fixed col. For larger indices distinct elements may get equal keys: row 2^24 and row 0 do.", "quantifier": "every pair of 32-bit indices", "why_tests_cant": "2^64 pairs; tests in the repository use small matrices only", "anchors": ["include/utils.h:bit_interleave"]}
{"id": "C04", "title": "pick_block_size returns 0 or a power of two strictly smaller than both dimensions", "statement": "Whatever the vector sizes, number of workers, cache share and the value the floating point sqrt/log2 expression takes, the block size returned by pick_block_size is 0 exactly when the size requirement of its last step fails, and otherwise a power of two 2^k, k >= 0, with 2^k < rows and 2^k < columns.", "quantifier": "every pair of dimensions, worker count and floating-point estimate", "why_tests_cant": "depends on machine (threads, cache) and on all sizes", "anchors": ["include/utils.h:pick_block_size"]}
{"id": "C05", "title": "The block size picked automatically makes constant-size blocking divide by zero on small matrices", "statement": "Passing the result of pick_block_size directly to constant-size blocking, as the drivers do, is safe only when it is not 0: for matrices too small (and for more than 2^31 rows) the picked size is 0 and the blocking divides by zero; in every other case the blocking succeeds.", "quantifier": "every matrix size", "why_tests_cant": "only sizes outside the tested set trigger it", "anchors": ["include/utils.h:pick_block_size", "include/generic/gsb.h:Coo_to_Blocked", "src/drivers/blocked.cpp:main"]}
{"id": "C06", "title": "index_to_blockindex returns the unique block containing an index", "statement": "For an offset array that starts at 0, is non-decreasing and ends at n, and for every i < n, index_to_blockindex returns b < number of blocks with offset[b] <= i < offset[b+1]; and no other block contains i.", "quantifier": "every offset array and every index", "why_tests_cant": "unbounded array lengths, including empty blocks", "anchors": ["include/utils.h:index_to_blockindex"]}
{"id": "C07", "title": "size_to_offset is the exclusive prefix sum of the block sizes", "statement": "After size_to_offset the array holds offset[k] = sum of the first k block sizes for every k (inclusive of the total in the last position) and never touches memory outside the array, as long as the total fits the index type.", "quantifier": "every array of sizes", "why_tests_cant": "unbounded length", "anchors": ["include/utils.h:size_to_offset"]}
{"id": "C08", "title": "Constant-size blocking partitions the index space with no gaps", "statement": "For a positive block size the generated offset arrays start at 0, are strictly increasing inside, end at rows (resp. columns), have max(1, rows/size) blocks, all but the last block have exactly the requested size and the last has fewer than 2*size indices (or all rows if rows < size).", "quantifier": "every dimension and every positive block size", "why_tests_cant": "unbounded sizes; remainder handling", "anchors": ["include/generic/gsb.h:Coo_to_Blocked", "include/matrix/csbr.h:Coo_to_Csbr (constant size)"]}
{"id": "C09", "title": "parallel_stable_sort sorts, permutes and is stable on every input, whatever the cut-offs", "statement": "For every array, every strict weak ordering and every choice of the serial cut-off thresholds the parallel merge sort leaves the array sorted, a permutation of its input, with equivalent elements in their original order, never reads or writes outside its two buffers; and the out-of-memory fallback yields the identical array.", "quantifier": "every array length, every strict weak order, every cut-off, allocation success or failure", "why_tests_cant": "sorting inputs of size > 500/2000 exercise the recursive splits; inputs unbounded", "anchors": ["dep/pss/parallel_stable_sort.h:parallel_stable_sort", "dep/pss/parallel_stable_sort.h:parallel_move_merge", "dep/pss/pss_common.h:serial_move_merge"]}
{"id": "C10", "title": "The parallel sort has no data race and one result under every schedule", "statement": "The two recursive sorts run by a parallel merge sort step, and the two recursive merges run by a merge step, write disjoint locations and neither reads what the other writes, so every interleaving of their memory accesses ends in the same arrays as sequential execution.", "quantifier": "every interleaving of the two tasks, every input", "why_tests_cant": "schedules cannot be enumerated", "anchors": ["dep/pss/parallel_stable_sort.h:parallel_stable_sort_aux", "dep/pss/parallel_stable_sort.h:parallel_move_merge"]}
{"id": "C11", "title": "Each documented element order is the one produced", "statement": "sort_triplets (row-major or column-major), the Morton sort, the wide-row sort and the block sort leave the elements ordered by their documented keys, lose and duplicate no element, and keep ties in order (for the ones using the stable sort).", "quantifier": "every element array", "why_tests_cant": "unbounded arrays with ties", "anchors": ["include/utils.h:sort_triplets", "include/utils.h:sort_triplets_morton", "include/utils.h:sort_elements_blocks", "include/utils.h:sort_triplets_widerows"]}
{"id": "C12", "title": "sort_triplets_blocks reads past the end of its array for every matrix", "statement": "Sorting a triplet array into block order by sort_triplets_blocks has undefined behaviour for every triplet array and every blocking with at least one block row: the scan that splits the array by block row has no end test and reads the element after the last one. (So no matrix can be built through it.)", "quantifier": "every triplet array and block offsets", "why_tests_cant": "reads past the end usually look harmless in tests", "anchors": ["include/utils.h:sort_triplets_blocks", "include/matrix/csbr.h:Coo_to_Csbr"]}
{"id": "C13", "title": "count_blocks and count_nnz_rows count distinct blocks/rows of a grouped array", "statement": "For a non-empty array sorted by block id count_blocks returns the number of distinct ids; count_nnz_rows returns the number of maximal runs of equal rows, which is the number of distinct rows when equal rows are adjacent; for an empty array both read out of bounds.", "quantifier": "every element array", "why_tests_cant": "unbounded arrays", "anchors": ["include/utils.h:count_blocks", "include/utils.h:count_nnz_rows"]}
{"id": "C14", "title": "Block ids are unique per block", "statement": "If blockrows*blockcols fits the index type, two elements get the same block id exactly when they lie in the same block row and block column, and the block row/column are recovered by division and remainder; likewise for constant block sizes, where the block row and column are the coordinates divided by the sizes and a size of zero divides by zero. (If the product does not fit, distinct blocks collide.)", "quantifier": "every element and every blocking", "why_tests_cant": "overflow needs more than 2^32 blocks", "anchors": ["include/utils.h:calculate_block_id"]}
{"id": "C15", "title": "COO SpMV adds A*x to y, for every element order", "statement": "spmv on a coordinate matrix terminates with no undefined behaviour whenever all indices are in range and leaves y[i] + sum_j A(i,j) x[j] in y[i] (duplicates summed), x untouched; over exact arithmetic the result does not depend on the order of the elements.", "quantifier": "every matrix, vectors and element order", "why_tests_cant": "unbounded matrices", "anchors": ["include/spmv/coo.h:spmv_coo"]}
{"id": "C16", "title": "Converting between the coordinate formats preserves the elements", "statement": "Copying a coordinate matrix between the separate-array, array-of-structs and (row,col) pair layouts preserves dimensions and all elements in order when index widths suffice.", "quantifier": "every coordinate matrix", "why_tests_cant": "unbounded matrices", "anchors": ["include/generic/coo.h:Coo_to_Coo", "include/generic/coo.h:set_point"]}
{"id": "C17", "title": "CSR construction yields a well-formed CSR structure with the same entries", "statement": "Coo_to_Csr leaves row_ptr with rows+1 entries starting at 0, non-decreasing and ending at nonzeros, and the slice of row i contains exactly the (column,value) pairs of row i, ordered by column, ties in input order.", "quantifier": "every coordinate matrix, sorted or not", "why_tests_cant": "unbounded matrices; empty rows, duplicates", "anchors": ["include/matrix/csr.1.h:Coo_to_Csr", "include/matrix/csr.2.h:Coo_to_Csr"]}
{"id": "C18", "title": "CSR SpMV computes y + A x on every schedule", "statement": "Building a CSR matrix from any coordinate matrix and multiplying leaves y[i] + sum_j A(i,j) x[j] in y[i] under every interleaving of the per-row tasks, without data races or out-of-bounds accesses.", "quantifier": "every matrix, every vector, every schedule", "why_tests_cant": "schedules and matrices unbounded", "anchors": ["include/spmv/omp/csr.h:spmv_csr", "include/matrix/csr.1.h:Coo_to_Csr"]}
{"id": "C19", "title": "CSR, CSR2, serial and parallel kernels are bit-identical", "statement": "The serial and parallel CSR kernels, on either CSR layout built from the same coordinate matrix, give the same y for every value type and every (also non-associative) addition.", "quantifier": "every matrix, vector, value type and schedule", "why_tests_cant": "rounding differences depend on values", "anchors": ["include/spmv/csr.h", "include/spmv/omp/csr.h", "include/matrix/csr.2.h"]}
{"id": "C20", "title": "Cswr (wide rows) SpMV computes y + A x when the width fits the short index", "statement": "For every width between 1 and the number of values of the short index type, building a wide-row matrix and multiplying gives y + A x on every schedule.", "quantifier": "every matrix, width in range, schedule", "why_tests_cant": "ragged last wide row, empty wide rows", "anchors": ["include/matrix/cswr.h:Coo_to_Cswr", "include/matrix/cswr.h:Cswr::spmv"]}
{"id": "C21", "title": "Cswr is wrong for widths beyond the short index range", "statement": "For a width above the number of values of the short index type the row offset inside a wide row is truncated silently, so that there are matrices for which SpMV adds a contribution to a wrong row; and a width of 0, which the driver accepts, divides by zero on every matrix.", "quantifier": "every width", "why_tests_cant": "needs width > 65536", "anchors": ["include/matrix/cswr.h:Coo_to_Cswr", "src/drivers/cswr.cpp:main"]}
{"id": "C22", "title": "Compressed-row CSR construction has undefined behaviour", "statement": "Building a compressed-row CSR matrix has undefined behaviour for every element array whose size fits the index type: the constructor increments cells of a freshly allocated, never initialised row pointer array (or, for an empty array, reads its first element).", "quantifier": "every coordinate matrix", "why_tests_cant": "fresh heap memory is often zero in tests", "anchors": ["include/matrix/crcsr.h:Coo_to_CrCsr"]}
{"id": "C23", "title": "Compressed-row SpMV kernel computes y + A x on well-formed input", "statement": "On a compressed-row structure whose row list is strictly increasing and whose row pointers delimit the row slices, the kernel (serial or parallel under every schedule) computes y + A x and leaves rows not listed untouched. If the constructor's row pointers started at zero, the whole pipeline would do so on every matrix whose elements come row by row, and would be stopped by an assertion on every other matrix.", "quantifier": "every well-formed structure, vectors, schedules", "why_tests_cant": "unbounded", "anchors": ["include/spmv/crcsr.h:spmv_crcsr", "include/spmv/omp/crcsr.h:spmv_crcsr"]}
{"id": "C24", "title": "Dense conversion and SpMV agree with A when no coordinate repeats", "statement": "Coo_to_Dense writes each entry at row*columns+col, zero elsewhere, and dense SpMV (serial or parallel, every schedule) computes y + A x when coordinates are pairwise distinct and rows*columns fits the index type. Sizes whose product overflows are not always rejected: then cells outside the array are written.", "quantifier": "every matrix without duplicates", "why_tests_cant": "unbounded", "anchors": ["include/matrix/dense.h:Coo_to_Dense", "include/spmv/dense.h:spmv_dense", "include/spmv/omp/dense.h:spmv_dense"]}
{"id": "C25", "title": "Dense conversion of duplicate coordinates keeps only the last one", "statement": "A dense matrix built from a coordinate matrix with repeated coordinates does not multiply like the coordinate matrix: the later duplicate overwrites the earlier one in the dense array, while every sparse format sums them; there are matrices for which the products differ.", "quantifier": "matrices with duplicates", "why_tests_cant": "tests use files without duplicates", "anchors": ["include/matrix/dense.h:Coo_to_Dense"]}
{"id": "C26", "title": "Small-index COO blocks detect indices that do not fit", "statement": "Building a block with short indices from wide-index elements either aborts or keeps every index exactly; SpMV on the block equals SpMV on the elements.", "quantifier": "every element array and index widths", "why_tests_cant": "needs indices above the short range", "anchors": ["include/matrix/block_coo.1.h:Coo_to_Coo", "include/matrix/block_coo.2.h:Coo_to_Coo"]}
{"id": "C27", "title": "Small-index CSR blocks truncate wide columns silently", "statement": "Building a CSR block with short column indices keeps every column index, and multiplies like the elements, if every block-local column is below the short range; a larger column is stored modulo that range without any check, so that the block multiplies by a wrong entry of x (the COO block aborts instead).", "quantifier": "every element array", "why_tests_cant": "needs a block wider than 65536 columns", "anchors": ["include/matrix/block_csr.h:Coo_to_Csr"]}
{"id": "C28", "title": "Csbr construction and SpMV compute y + A x on every schedule", "statement": "For every coordinate matrix with at least one element and every blocking of its rows and columns (given offsets or constant size) whose non-empty blocks can be numbered by the index type, building a Csbr matrix and multiplying, through the balanced or the chunked kernel with the partition the library computes, gives y + A x under every schedule over exact arithmetic; for any arithmetic the balanced kernel gives the column-ordered accumulation and the chunked one a result independent of the schedule. The built structure holds exactly the elements: element i of the reordered source is at position i, in the slice of its row in the row pointers of its block, which is listed in its block row with its block column.", "quantifier": "every non-empty matrix, blocking, worker count, schedule", "why_tests_cant": "unbounded", "anchors": ["include/matrix/csbr.h:Coo_to_Csbr", "include/spmv/omp/gsb.h:spmv_blocked"]}
{"id": "C29", "title": "Csbr2 construction and SpMV compute y + A x on every schedule", "statement": "For every coordinate matrix with at least one element and every blocking, building a Csbr2 matrix and multiplying gives y + A x under every schedule; the built structure holds exactly the elements, each in the slice of its row in its block.", "quantifier": "every non-empty matrix, blocking, worker count, schedule", "why_tests_cant": "unbounded", "anchors": ["include/matrix/csbr.2.h:Coo_to_Csbr", "include/matrix/csbr.2.h:Csbr2::spmv"]}
{"id": "C30", "title": "Csbr3 construction stores every element in the block its coordinates name", "statement": "For every coordinate matrix and constant block size that fits the short index, Csbr3 construction yields block pointers that delimit the blocks and block-local indices from which the original coordinates are recovered.", "quantifier": "every matrix and block size", "why_tests_cant": "unbounded", "anchors": ["include/matrix/csbr.3.h:Coo_to_Csbr"]}
{"id": "C31", "title": "Csbr3 chunked SpMV is right on full block rows and overruns y on a ragged last one", "statement": "On a block row with all its rows the chunked kernel adds that block row's part of A x under every schedule. On a last block row with fewer rows than the block size, split into two or more chunks, it never completes without undefined behaviour, on any schedule: the temporary's block_size entries are all added to y, past its end.", "quantifier": "every matrix whose rows are not a multiple of the block size", "why_tests_cant": "silent heap overwrite", "anchors": ["include/spmv/omp/csbr.3.h:spmv_chunk"]}
{"id": "C32", "title": "Bcsr construction uses a block number before assigning it", "statement": "Building a Bcsr matrix has undefined behaviour for every coordinate matrix and blocking: a block number is read before it is assigned. Even if the unassigned variable is taken to hold any particular number, construction does not complete whenever two of the first N block numbers are empty, N being the number of non-empty blocks; if it holds a block number and no block is empty, construction completes with every element in its block's row slice.", "quantifier": "every coordinate matrix", "why_tests_cant": "uninitialised memory often happens to be small in tests", "anchors": ["include/matrix/bcsr.h:Coo_to_Bcsr"]}
{"id": "C33", "title": "Cgbr SpMV computes y + A x whatever per-block format is chosen", "statement": "For every non-empty coordinate matrix, every blocking (given offsets, or a constant block size s with 2s at most one more than the short range) whose blocks fit the short index type, and every assignment of COO/CSR/dense to blocks (dense only for blocks without duplicate coordinates), building a Cgbr matrix and multiplying gives y + A x on every schedule. The balance decision is made on the loads of the blocks per block row, where a dense block counts all its cells.", "quantifier": "every matrix, blocking, block-format choice, schedule", "why_tests_cant": "format choice depends on floating-point thresholds and data", "anchors": ["include/matrix/cgbr.h:Coo_to_Cgbr", "include/matrix/cgbr.h:Coo_to_MatrixBlock"]}
{"id": "C34", "title": "Cgbr2 SpMV computes y + A x whatever the block factory chooses", "statement": "The same for the polymorphic variant, for every factory that returns a COO, CSR or dense block and whatever the uninitialised balance flag happens to contain.", "quantifier": "every matrix, blocking, factory, flag value, schedule", "why_tests_cant": "flag is uninitialised; factory user-supplied", "anchors": ["include/matrix/cgbr.2.h", "include/matrix/blocks.h:BlockFactoryDefault"]}
{"id": "C35", "title": "Partitioning a block row covers every block exactly once, in order", "statement": "The chunk boundaries computed for a block row start at its first block, end at its end, are non-decreasing, so consecutive chunks tile the row, for every non-zero distribution and threshold; a whole matrix gets one such list for every block row.", "quantifier": "every distribution of non-zeros over blocks", "why_tests_cant": "unbounded", "anchors": ["include/partition.h:partition_blockrow", "include/partition.h:partition_init"]}
{"id": "C36", "title": "Partitioned chunks carry a bounded load", "statement": "Every chunk's non-zero count, not counting its first block (and, in the last chunk, its last block), is at most the threshold nonzeros/(2*workers); every chunk but the last, together with the block after it, exceeds the threshold; and a block row is split into at most 2*workers chunks.", "quantifier": "every distribution", "why_tests_cant": "unbounded", "anchors": ["include/partition.h:partition_blockrow"]}
{"id": "C37", "title": "partition_blockrow returns one more than the number of chunks", "statement": "For every block row the returned value, documented as the number of chunks, is the number of chunk boundaries: one more than the number of chunks.", "quantifier": "every block row", "why_tests_cant": "return value is ignored by callers", "anchors": ["include/partition.h:partition_blockrow"]}
{"id": "C38", "title": "The recursive chunk kernel is race-free and equals sequential execution under every schedule", "statement": "For every chunk range the divide-and-conquer kernel with its temporaries terminates under every interleaving in the state sequential execution reaches, frees every temporary it allocates, and writes only the rows of its block row.", "quantifier": "every chunk list, every schedule", "why_tests_cant": "schedules cannot be enumerated", "anchors": ["include/spmv/omp/gsb.h:spmv_chunk"]}
{"id": "C39", "title": "Balanced block SpMV gives bit-identical results on every run", "statement": "The balanced kernel processes the blocks of one block row in order, so for any value arithmetic the result is the same in each run, and equals the row-wise left-to-right accumulation.", "quantifier": "every schedule", "why_tests_cant": "rounding differences appear rarely", "anchors": ["include/spmv/omp/gsb.h:spmv_balanced"]}
{"id": "C40", "title": "All formats agree bit for bit on matrices whose blocks are walked in column order", "statement": "CSR, CSR2, wide-row, balanced Csbr, balanced Csbr2 built from the same coordinate matrix give identical y for any value arithmetic: each row is accumulated in column order with ties in input order.", "quantifier": "every matrix, vector, value arithmetic", "why_tests_cant": "depends on rounding of all values", "anchors": ["include/matrix/csr.1.h", "include/matrix/cswr.h", "include/matrix/csbr.2.h", "include/spmv/omp/gsb.h"]}
{"id": "C41", "title": "Conversions to CSR/Csr2/Cswr/Csbr/Csbr2 leave the source coordinate matrix a permutation of itself", "statement": "After any of these conversions the source has the same elements (only reordered; the block id field may change), so several formats can be built from the same source one after another, as the test programs do.", "quantifier": "every matrix, every sequence of conversions", "why_tests_cant": "unbounded", "anchors": ["include/matrix/csr.1.h", "include/matrix/csr.2.h", "include/matrix/cswr.h", "include/matrix/csbr.h", "include/matrix/csbr.2.h", "src/test/result.cpp"]}
{"id": "C42", "title": "Conversion to Cgbr changes the source matrix", "statement": "After converting a coordinate matrix to Cgbr or Cgbr2 the source holds every element with coordinates relative to its block's first row and column; so it denotes another matrix as soon as some element lies in a block that does not start at (0,0).", "quantifier": "every matrix with more than one block", "why_tests_cant": "the test program backs the source up first", "anchors": ["include/matrix/cgbr.h:Coo_to_Cgbr", "include/matrix/cgbr.2.h"]}
{"id": "C43", "title": "Cgbr statistics add up", "statement": "After building a Cgbr matrix the per-type block counts add up to the number of non-empty blocks and the per-type non-zero counts add up to the number of non-zeros.", "quantifier": "every matrix and block-format choice", "why_tests_cant": "unbounded", "anchors": ["include/matrix/cgbr.h:Coo_to_Cgbr"]}
{"id": "C44", "title": "Repeated SpMV accumulates", "statement": "Calling spmv k times on a CSR matrix adds k*A*x to y over exact arithmetic; the matrix and x do not change.", "quantifier": "every k, matrix, vector", "why_tests_cant": "unbounded histories", "anchors": ["include/spmv/omp/csr.h:spmv_csr"]}
{"id": "C45", "title": "Blocked formats reject an empty matrix by undefined behaviour", "statement": "Building Csbr, Csbr2 or Csbr3 from a matrix with no elements reads the first element of an empty array, whatever the blocking, whereas building CSR from it works.", "quantifier": "matrices with nonzeros = 0", "why_tests_cant": "no empty test file in the repository", "anchors": ["include/utils.h:count_blocks", "include/matrix/csbr.2.h:Coo_to_Csbr"]}
{"id": "C46", "title": "invert_permutation inverts", "statement": "For every permutation p of 0..n-1 the result q satisfies q[p[i]] = i and p[q[i]] = i, under every schedule of the parallel loop; for an array of length n that is not a permutation there is an out-of-bounds write or a data race.", "quantifier": "every permutation, schedule", "why_tests_cant": "n! permutations", "anchors": ["include/permute.h:invert_permutation"]}
{"id": "C47", "title": "Permuting a matrix and its vectors commutes with SpMV", "statement": "Relabelling rows and columns of a coordinate matrix by p and permuting x and y accordingly gives the permuted product: (PAP^T)(Px) = P(Ax).", "quantifier": "every matrix, permutation, vector", "why_tests_cant": "unbounded", "anchors": ["include/permute.h:permute_indeces"]}
{"id": "C48", "title": "Permuting by p and then by its inverse restores the matrix", "statement": "permute_indeces with a permutation and then with its inverse leaves every coordinate unchanged.", "quantifier": "every permutation and matrix", "why_tests_cant": "unbounded", "anchors": ["include/permute.h:permute_indeces", "src/tools/permute.cpp"]}
{"id": "C49", "title": "expand_block_size returns the least power of two that holds every block", "statement": "The result is the least power of two not smaller than any block size, when it fits the index type; it is 0 when all sizes are zero or that power does not fit.", "quantifier": "every offset array", "why_tests_cant": "unbounded", "anchors": ["include/expand.h:expand_block_size"]}
{"id": "C50", "title": "Expansion is injective, order preserving and keeps blocks", "statement": "expand_indeces maps index i of block b to b*B + (i - offset[b]); distinct indices stay distinct, order is preserved, and the block of an expanded index e is e/B; the array variant and the element variant agree, under every schedule; the offsets of the expanded blocking are computed without overflow.", "quantifier": "every blocking, index, schedule", "why_tests_cant": "unbounded", "anchors": ["include/expand.h:expand_index", "include/expand.h:expand_indeces"]}
{"id": "C51", "title": "Binary .bin files round-trip", "statement": "Reading back a .bin file written from a coordinate matrix gives the same dimensions and elements in order with bit-identical values, for every index width and value size.", "quantifier": "every matrix", "why_tests_cant": "unbounded", "anchors": ["include/io/output.h:write_bin_COO", "include/io/input.h:read_bin_COO"]}
{"id": "C52", "title": "A truncated .bin file is rejected, unless three times its element count wraps", "statement": "Every proper prefix of a written .bin file makes the reader return an error, provided three times the number of elements fits the index type. Otherwise some truncated file, cut before its values, is accepted, because the number of items read is compared after wrapping, and the values of the matrix returned are uninitialised.", "quantifier": "every matrix and every truncation point", "why_tests_cant": "every crash point of the writer", "anchors": ["include/io/input.h:read_bin_COO"]}
{"id": "C53", "title": "read_bin_CSR reads row-sorted files right and others silently wrong", "statement": "Reading a .bin file sorted by (row, column) directly into CSR gives the same arrays as reading it to coordinates and converting; for a row-sorted file the product accumulates each row in file order; for an unsorted file the result pairs the sorted rows with columns and values in file order, so that for some matrices the product is wrong; a file truncated after its row array is accepted.", "quantifier": "every file", "why_tests_cant": "unbounded", "anchors": ["include/io/input.h:read_bin_CSR"]}
{"id": "C54", "title": "The three-file reader restores the dimensions only when the last row and column are occupied", "statement": "Apart from closing a file twice (C55), reading the three files written from a non-empty coordinate matrix gives its elements with dimensions one more than the largest indices: the written ones exactly when the last row and column hold an element. If the byte size of the value file does not fit the index type, elements are dropped silently. The generic variant has undefined behaviour on every triple of files (uninitialised counters and maxima).", "quantifier": "every triple of files", "why_tests_cant": "uninitialised stack often zero", "anchors": ["include/io/input.h:read_bin_COO (3 files)"]}
{"id": "C55", "title": "The three-file reader closes one file twice and leaves one open", "statement": "Reading any three files has undefined behaviour unless closing a closed file is forgiven; for files written by the library exactly because the column file is closed twice, and then the value file stays open.", "quantifier": "every successful read", "why_tests_cant": "double close is silent in most C libraries", "anchors": ["include/io/input.h:read_bin_COO (3 files)"]}
{"id": "C56", "title": "Blocked .block files round-trip into Csbr and Csbr2", "statement": "Writing a coordinate matrix to a .block file under any blocking and reading it as Csbr or Csbr2 gives exactly the matrix that conversion in memory gives, hence one that multiplies like the original, when the index type is unsigned int; every truncated file, and every file read with another number of block rows or columns or for other dimensions, is refused; for a narrower index type the readers abort, and for a wider one (when the block numbers fit unsigned int) they access out of bounds.", "quantifier": "every matrix, blocking, index width, value representation, truncation point and schedule", "why_tests_cant": "unbounded", "anchors": ["include/io/output.h:write_bin_blocked", "include/io/blocked.h:read_bin_Csbr"]}
{"id": "C57", "title": "Reading a .block file as Cgbr loses its first record", "statement": "Reading a .block file of at least two records into Cgbr builds the matrix of all records but the first (it reports the right number of elements, but multiplies without the first one; a first block of one record becomes an empty block); a file of exactly one record has undefined behaviour.", "quantifier": "every .block file", "why_tests_cant": "one lost element of many is hard to notice", "anchors": ["include/io/blocked.h (Cgbr)"]}
{"id": "C58", "title": "Raw arrays round-trip; trailing bytes are ignored", "statement": "read_bin_array returns the length and contents written by write_bin_array; for any file it returns the whole items the file holds and ignores a trailing partial item, with result 0; a file that cannot be opened ends the program.", "quantifier": "every array", "why_tests_cant": "unbounded", "anchors": ["include/io/input.h:read_bin_array", "include/io/output.h:write_bin_array"]}
{"id": "C59", "title": "Matrix Market banners round-trip", "statement": "For every valid type code, reading the banner line produced for it gives the same type code, in any letter case; the banner reader also accepts the combinations that the library's own validity test rejects.", "quantifier": "every type code and letter case", "why_tests_cant": "combinations of four fields and cases", "anchors": ["dep/mm_io/mm_io.c:mm_read_banner", "dep/mm_io/mm_io.c:mm_typecode_to_str"]}
{"id": "C60", "title": "Reading a banner overflows its buffers exactly on a long word", "statement": "Reading the banner line has no undefined behaviour when each of its first five words has fewer than 64 characters, and overflows a 64-byte buffer when one of them has 64 or more.", "quantifier": "every first line", "why_tests_cant": "malformed files", "anchors": ["dep/mm_io/mm_io.c:mm_read_banner"]}
{"id": "C61", "title": "Reading the size line terminates unless fewer than three numbers precede a character that cannot begin a number", "statement": "After any number of comment lines of at most 1024 characters a line with three integers is read as the size. When the first other line has fewer than three numbers, and after it fewer than three numbers are followed by a character that cannot begin a number, the reader never returns; when only digits, signs and white space follow that line it always returns (or a number overflows an int). For every file one turn per character decides whether it returns.", "quantifier": "every file content", "why_tests_cant": "non-termination on malformed files", "anchors": ["dep/mm_io/mm_io.c:mm_read_mtx_crd_size"]}
{"id": "C62", "title": "General and symmetric Matrix Market files are read as the matrix they denote, others not", "statement": "For every general real coordinate file the element list read is the file's, converted to 0-based; for a symmetric file every off-diagonal entry also appears mirrored, nothing is written out of bounds and the result is symmetric; skew-symmetric and hermitian files are not mirrored and pattern files are misread; no file whatsoever makes the element reader write outside its arrays.", "quantifier": "every entry list", "why_tests_cant": "unbounded", "anchors": ["include/io/input.h:read_mm_COO"]}
{"id": "C63", "title": "Writing and reading Matrix Market text preserves the structure and rounds the values", "statement": "A matrix written as Matrix Market text and read back has the same dimensions and the same coordinates in the same order; each value becomes what reading its %f text gives, so the matrix is the same exactly when every value survives that, and there are values that do not.", "quantifier": "every matrix", "why_tests_cant": "depends on all values", "anchors": ["include/io/output.h:write_mm_COO", "include/io/input.h:read_mm_COO"]}
{"id": "C64", "title": "mm_write_banner and mm_write_mtx_crd_size always report failure", "statement": "The text these functions write is right, but they return the write-error code on every success: the number of characters printed is compared with the number of conversions.", "quantifier": "every type code and size", "why_tests_cant": "callers ignore the result", "anchors": ["dep/mm_io/mm_io.c:mm_write_banner", "dep/mm_io/mm_io.c:mm_write_mtx_crd_size"]}
{"id": "C65", "title": "File format dispatch is by suffix", "statement": "string_ends_with(s, e) holds exactly when e is a suffix of s, and read_COO selects the text reader exactly for names ending in .mtx and the binary one exactly for .bin.", "quantifier": "every pair of strings", "why_tests_cant": "unbounded", "anchors": ["src/common.cpp:string_ends_with", "include/io/input.h:read_COO"]}
{"id": "C66", "title": "one2zero converts all indices of a file or none, and stops at the first bad file", "statement": "The one-based to zero-based converter writes, for each file in turn, every index decreased by one; at the first file with a zero index it stops, having written nothing for that file while the outputs of earlier files stay; this for input names of at most 120 characters and files with fewer items than the index range. A first name of 121 or more characters overflows the name buffer; a larger file is cut short silently.", "quantifier": "every index file", "why_tests_cant": "unbounded", "anchors": ["src/tools/one2zero.c:main"]}
{"id": "C67", "title": "check_results reports equality exactly", "statement": "The result comparison returns 0 exactly when all compared entries are equal, and -1 otherwise.", "quantifier": "every pair of vectors", "why_tests_cant": "unbounded", "anchors": ["include/test/utils.h:check_results"]}
{"id": "C68", "title": "Which formats release what they allocate, and how", "statement": "Building and releasing CSR, CSR2, wide-row, coordinate, dense, compressed-row, Csbr3, Cgbr (given offsets) and Csbr2 (given malloc'ed offsets) matrices frees every allocation once with the matching deallocator and touches nothing else. It does not for the others: Csbr gives calloc'ed row pointers to delete[] and never frees its partition; Csbr2 with constant block size gives new[]'ed offsets to free; Cgbr with constant block size leaks its offsets; a Cgbr read from a file leaks its partition if its never-set balance flag happens to be true; Cgbr2 leaks the array of every dense block; Bcsr read from a file leaks every block's row pointers; releasing a three-array Coo and then destroying it frees everything twice.", "quantifier": "every format, number of blocks and block rows, mixture of block formats, prior heap", "why_tests_cant": "mismatches are silent", "anchors": ["include/matrix/csbr.h:release", "include/matrix/csbr.2.h:release", "include/matrix/cgbr.h:release", "include/matrix/cgbr.2.h:release", "include/matrix/bcsr.h:release", "include/matrix/coo.1.h:Coo::~Coo", "include/partition.h"]}
{"id": "C69", "title": "Blocking and writing a matrix keeps its product", "statement": "The blocked-conversion tool as written has undefined behaviour on every triple of files (through the generic reader); with a reader that sets the dimensions to the sum of the block sizes the pipeline (assign block ids, sort by block, write, read back) denotes the same matrix as the input; a file made with other dimensions is refused when read back.", "quantifier": "every matrix", "why_tests_cant": "unbounded", "anchors": ["src/tools/convert_blocked.cpp:main"]}
{"id": "C70", "title": "double2float converts every value of a file and nothing else", "statement": "For each input file in turn the tool writes, in order, the single-precision conversion of every whole double in it, and touches no other file; at the first input that cannot be opened it stops with code 1, having already emptied that input's output file.", "quantifier": "every list of file names of at most 120 characters, every file content", "why_tests_cant": "unbounded", "anchors": ["src/tools/double2float.c:main"]}
{"id": "C71", "title": "The permute tool relabels index files by a permutation or by its inverse", "statement": "For row and column index files with entries in range and a permutation file, the tool writes for each index its image under the permutation (compiled with INVPERM: under the inverse permutation, and then it gives an array from new[] to free, which is undefined); no other file changes. A column file name of 118 or more characters makes it read an unterminated output name.", "quantifier": "every index file, permutation, file name", "why_tests_cant": "unbounded", "anchors": ["src/tools/permute.cpp:main", "Makefile"]}
{"id": "C72", "title": "The convert tool writes the matrix sorted by column, given a sound reader", "statement": "With a reader that returns the matrix of the three files the convert tool writes a .bin and/or an .mtx file, as the mode says, from which the readers get exactly the matrix's elements sorted by column; any other mode is refused; as written it has undefined behaviour on every triple of files (through the generic reader).", "quantifier": "every matrix and mode", "why_tests_cant": "unbounded", "anchors": ["src/tools/convert.cpp:main"]}
{"id": "C73", "title": "The sort tool sorts text files by row; its other uses are undefined as written", "statement": "For a Matrix Market input the tool writes a file from which the reader gets the same elements sorted by row (values reread from %f). For three binary files it does likewise given a sound reader, but as written is undefined (generic reader); two arguments read beyond the argument vector; and a file of block sizes is used as if it held offsets, which reads out of bounds.", "quantifier": "every input file and argument list", "why_tests_cant": "unbounded", "anchors": ["src/tools/sort.cpp:main"]}
{"id": "C74", "title": "The prepare and expanded tools keep the product through relabelling, blocking and expansion", "statement": "Given a sound reader, the prepare tool writes a row-sorted, a column-sorted, a blocked and an expanded file of the matrix relabelled by the permutation: each read back gives that matrix, the blocked one multiplies permuted vectors to the permuted product under every schedule, and the expanded one multiplies vectors spread over power-of-two blocks to the spread product; the temporary files are removed and no other file is touched.", "quantifier": "every matrix, permutation, block sizes", "why_tests_cant": "unbounded", "anchors": ["src/tools/prepare.cpp:main", "src/tools/expanded.cpp:main", "include/expand.h"]}
{"id": "C75", "title": "Building Csbr from struct-of-arrays coordinates leaves its arrays", "statement": "Building a Csbr matrix from a Coo2 matrix (three coordinate arrays) has undefined behaviour for every non-empty matrix and every blocking the checks accept: its block sort reads past the end of the elements.", "quantifier": "every non-empty matrix and blocking", "why_tests_cant": "out-of-bounds reads of heap memory often go unnoticed", "anchors": ["include/matrix/csbr.h:Coo_to_Csbr", "include/utils.h:sort_triplets_blocks"]}
{"id": "C76", "title": "A Bcsr matrix read from a .block file has blocks without rows", "statement": "Whatever the file and the blocking, when reading a .block file as Bcsr reports success, every block of the result says it has zero rows and has no value pointer; for files the tools write the reader does succeed, with right columns and values, and with the number of elements of each row where the row pointers should be.", "quantifier": "every file, every blocking", "why_tests_cant": "every file content; the reader reports success", "anchors": ["include/io/blocked.h:read_bin_blocked"]}
{"id": "C77", "title": "The default block size is the largest power of two that meets its constraints", "statement": "When the block-size picker gives a non-zero size it is at most 32768 and at most the given root estimate, leaves at least 8 blocks per worker over the rounded-up rows (at least 4 per worker over the actual rows), is at most half the rounded-up rows and columns, keeps the vectors of a block within 256K for values of at most 8 bytes; and it is the largest power of two that does so.", "quantifier": "every matrix size below 2^32, every worker count, value size, root estimate", "why_tests_cant": "unbounded range of sizes", "anchors": ["include/utils.h:pick_block_size"]}
{"id": "C78", "title": "What the benchmark prints describes the measured times", "statement": "The summary of a list of measured times names the number of non-zeros, the smallest and the largest time, a time with at most half the times below it and at most half above it, and their exact mean, which lies between the smallest and the largest. With no measurement it reads outside the list. The median helper gives the middle value, or halfway between the two middle values.", "quantifier": "every non-empty list of times", "why_tests_cant": "every length, order and multiplicity", "anchors": ["src/common.cpp:print_timing_verbose", "src/common.cpp:print_timing_csv", "include/test/utils.h:median"]}
{"id": "C79", "title": "The benchmark harness multiplies safely and repeatably", "statement": "For a matrix whose product is defined, the harness sets up the vectors, multiplies once to warm up and then once per iteration, on every schedule without a fault or race, frees every cell it allocated and prints a summary of the measured times with the matrix's number of non-zeros; the result vector is not cleared between products, so after k iterations it holds y + (k+1) A x. With zero iterations it is undefined.", "quantifier": "every matrix with a defined product, number of iterations, random vector, measured times, schedule", "why_tests_cant": "schedules and unbounded iterations", "anchors": ["include/test/bench.h:benchmark_spmv_core", "include/common.h:vector_zero", "include/common.h:vector_random"]}
{"id": "C80", "title": "The CSR and wide-row drivers benchmark the matrix in the file", "statement": "Given a file that a reader reads as a matrix whose sizes fit the index type, the CSR driver (for both CSR kernels) and the wide-row driver exit with 0 after printing one summary with that matrix's number of non-zeros, on every schedule. The wide-row width is the decimal number in the second argument, or 32. Missing arguments and files that are refused give exit code 1 and no summary. A width argument that is 0 or no number divides by zero.", "quantifier": "every file, argument list, matrix, width, schedule", "why_tests_cant": "every file content and schedule", "anchors": ["src/drivers/csr.cpp:main", "src/drivers/cswr.cpp:main"]}
{"id": "C81", "title": "The blocked drivers pick a usable block size, except for small matrices", "statement": "For a readable matrix with at least one element whose rows and columns are many enough for the number of threads, the drivers for Csbr, Csbr2, Cgbr and Cgbr2 pick a block size that is positive, at most 32768 (so 16-bit short indices always suffice) and below both dimensions, and complete with exit code 0 and one summary on every schedule. With a dimension too small for the number of threads the picked size is 0 and all four divide by zero.", "quantifier": "every file, matrix, number of threads, choice of block formats, schedule", "why_tests_cant": "every size, schedule", "anchors": ["src/drivers/blocked.cpp:main", "include/utils.h:pick_block_size"]}
{"id": "C82", "title": "The blocked driver ignores the block-size files it asks for", "statement": "Run with a matrix and two files of block sizes, as its usage message says, the blocked driver behaves exactly as if the two files had not been given, whatever they contain; the code that would use them is reached with no argument list.", "quantifier": "every file content and argument list", "why_tests_cant": "a non-effect over all files", "anchors": ["src/drivers/blocked.cpp:main"]}
{"id": "C83", "title": "The comparison drivers benchmark the same matrix in two formats", "statement": "The comparison driver converts the matrix in the file to CSR and then, from the source that conversion leaves, to Cgbr2, and prints a summary for each with the matrix's number of non-zeros, exit code 0, on every schedule; the permuting one does so for the square matrix relabelled so that index i goes to the position at which the permutation file lists i. Wrong argument counts and refused matrix files give exit code 1; a missing permutation file ends the program.", "quantifier": "every file, matrix, permutation, choice of block formats, schedule", "why_tests_cant": "every permutation and schedule", "anchors": ["src/drivers/bench.cpp:main", "src/drivers/pbench.cpp:main", "include/permute.h"]}
{"id": "C84", "title": "A Cgbr matrix of the built configurations multiplies right for every input, repeated positions included", "statement": "With the sizes the programs are built for (the short index type narrower than the value type, as with float and 16-bit indices) the format test of a Cgbr matrix, evaluated with IEEE single-precision rounding, chooses the coordinate format for every block; so for every non-empty coordinate matrix, with several elements at one position as well, and every blocking whose blocks fit the short indices, building a Cgbr matrix and multiplying gives y + A x under every schedule. When the two widths are equal the same choice is made as long as the sizes in bytes are small enough to be computed exactly. The rounding function used gives the nearest number of 24 bits, with ties to the even one. In general (any three positive type sizes), for a block of area at most 2^21 whose COO and CSR sizes are at most 2^22 bytes, the choice is: COO if it takes less than 3/2 of the bytes of CSR, else CSR if fewer than 3 in 10 cells are filled, else dense.", "quantifier": "every matrix, blocking, worker count, vector, schedule, block size and number of non-zeros", "why_tests_cant": "rounding of unbounded sizes, every schedule", "anchors": ["include/matrix/cgbr.h:Coo_to_MatrixBlock", "include/matrix/cgbr.h:Coo_to_Cgbr"]}
{"id": "C85", "title": "The default block factory stores a block in the smallest format", "statement": "For blocks whose sizes in bytes are at most 2^23 the default factory of Cgbr2 chooses exactly: coordinates if they take fewer bytes than CSR, else dense if it takes no more bytes than CSR, else CSR, serial when fewer than 1 in 20 cells are filled and parallel otherwise. For larger blocks it does so unless two sizes are within one part in a million of each other (2^25+1 elements in 2^24+1 rows are not stored as coordinates although those are smaller), and if rows*columns wraps around to 0 the block never counts as sparse. A Cgbr2 matrix so built multiplies right if no position is repeated.", "quantifier": "every number of rows, columns and non-zeros of a block; every matrix, blocking and schedule", "why_tests_cant": "rounding over the whole range of sizes", "anchors": ["include/matrix/blocks.h:BlockFactoryDefault::create"]}
{"id": "C86", "title": "A Cgbr matrix is balanced exactly when no block row has more than twice the average load", "statement": "For a matrix with fewer than 2^23 non-zeros whose blocks are stored as coordinates, construction marks it balanced if and only if every block row holds at most twice the average number of non-zeros per block row, despite the comparison being made with rounded numbers.", "quantifier": "every matrix with fewer than 2^23 non-zeros, every blocking", "why_tests_cant": "rounding at the boundary for every distribution", "anchors": ["include/matrix/cgbr.h:is_balanced"]}
{"id": "C87", "title": "A dense block keeps one of several elements at a position", "statement": "If several elements share a position, a Cgbr or Cgbr2 matrix computes, under every schedule, the product with the matrix from which, in the blocks stored dense, all but one of the elements of each position are removed and in which the other blocks are complete. So the product of a matrix with repeated positions can be wrong: a 2 x 2 matrix with 4 elements, two of them at one position, built by the default factory, loses one of them.", "quantifier": "every matrix, blocking, choice of formats, vector, schedule", "why_tests_cant": "every multiset of positions and schedule", "anchors": ["include/matrix/cgbr.h", "include/matrix/cgbr.2.h", "include/matrix/dense.h:Coo_to_Dense"]}
{"id": "C88", "title": "Products of floating-point matrices are as accurate as the order of additions allows, in every format", "statement": "With values that round (every addition and multiplication of finite numbers whose exact result is at most M yields a finite number within a relative error u of it, products also up to an underflow eta) each entry of y computed by a product, under every schedule, differs from the exact (y + A x)[i] by at most ((1+u)^n - 1) (|y| + |A||x|)[i] + (1+u)^n m eta whenever that bound excludes overflow, where for a row of k elements n = k + 1 and m = k for the coordinate, CSR, wide-row, Csbr (balanced), Csbr2 and Csbr3 products; n = k + 1 + d for the chunked Csbr kernel, where 2^d is at least twice the number of workers; and for Cgbr and Cgbr2 likewise, with at most one more product per matrix column if some block is dense (none with the format decisions the code makes for float). (1+u)^n - 1 is at most nu / (1 - nu). Two formats therefore differ by at most the sum of their bounds.", "quantifier": "every matrix, vector, blocking, number of workers, schedule and rounding value type", "why_tests_cant": "every order of rounding errors and every schedule", "anchors": ["include/matrix/coo.h", "include/matrix/csr.h", "include/matrix/csr.2.h", "include/matrix/cswr.h", "include/matrix/csbr.h", "include/matrix/csbr.2.h", "include/matrix/csbr.3.h", "include/matrix/cgbr.h", "include/matrix/cgbr.2.h", "include/spmv.h"]}
{"id": "C89", "title": "Float and double products: error at most n 2^-23 of |y|+|A||x|, exact for integers, not identical between formats", "statement": "IEEE float rounds with u = 2^-24, eta = 2^-150 and M the largest finite float, double with 2^-53, 2^-1075 and the largest finite double, so the bounds of the previous property hold with these; a float row computed with n <= 2^22 roundings whose |y| + |A||x| is at most 2^126 is finite and off by at most n 2^-23 (|y| + |A||x|) + m 2^-149. If matrix and vectors are integers and |y| + |A||x| is at most 2^24 (2^53 for double), every format gives exactly (y + A x)[i]. Formats do not give identical floats in general: for 1, 1 and 2^24 in one row the coordinate product and the CSR product differ.", "quantifier": "every float and double matrix and vector", "why_tests_cant": "every value and order of additions", "anchors": ["include/matrix/coo.h", "include/matrix/csr.h", "Makefile"]}
{"id": "C90", "title": "A block too large for the short index type makes Cgbr abort, but makes Cgbr2 and Csbr3 multiply by a different matrix", "statement": "Where the positions of all elements inside their blocks fit the short index type, a Cgbr matrix in the coordinate format (the one the built configurations always choose) multiplies right whatever the sizes of the blocks; where some position does not fit, its construction ends in a failed assertion. Cgbr2 and Csbr3 do not check: construction succeeds and every product, under every schedule, is the product with the matrix whose elements sit at their positions inside the block modulo the size of the short type (rows and columns in coordinate blocks, columns in CSR blocks, neither in dense blocks); so one element in column 2^16 of a one-row, one-block matrix with 16-bit short indices is multiplied by x[0].", "quantifier": "every matrix, blocking, block format, worker count, vector, schedule and width of the short type", "why_tests_cant": "every block size and schedule", "anchors": ["include/matrix/cgbr.h:Coo_to_MatrixBlock", "include/matrix/block_coo.1.h:Coo_to_Coo", "include/matrix/cgbr.2.h:create", "include/matrix/blocks.h", "include/matrix/csbr.3.h:Coo_to_Csbr"]}
{"id": "C91", "title": "Indices outside the vectors: the coordinate products and the readers check nothing", "statement": "The product of a coordinate matrix (array of elements, or three arrays) is defined exactly when every element's row is a position of y and its column a position of x, whatever the dimensions stored with the matrix; otherwise every execution ends at an access outside an array. The binary and the Matrix Market readers return code 0 and load whatever indices a file lists (a Matrix Market number n becomes n-1 modulo the number of index values, so a number 0 becomes the largest index); the first product with vectors of the declared size is then undefined.", "quantifier": "all coordinate matrices, vectors, binary files written from any matrix, and Matrix Market files with any numbers", "why_tests_cant": "a test with valid matrices never meets the boundary, and an access outside an array need not be visible when it happens", "anchors": ["include/spmv/coo.h: spmv_coo", "include/io/input.h: read_bin_COO, read_mm_COO", "include/matrix/coo.1.h", "include/matrix/coo.2.h"]}
{"id": "C92", "title": "Indices outside the matrix: the construction of CSR", "statement": "Building a CSR matrix does not look at column indices: a column that x does not have makes each of the four products undefined on every schedule. A row index that is not a row makes the construction write outside its row pointers, except the largest value of the index type (a row number 0 in a Matrix Market file): then the construction succeeds, passes its own check of the element count, and every row of the result reads the sorted elements from as many positions too far on as there are such elements, so that products silently use the wrong rows.", "quantifier": "all matrices whose row indices are values of the index type, all vectors and schedules", "why_tests_cant": "the wrong result appears only for files with out-of-range numbers, and the built-in assertion passes", "anchors": ["include/matrix/csr.1.h: Coo_to_Csr", "include/matrix/csr.2.h: Coo_to_Csr", "include/spmv/csr.h", "include/spmv/omp/csr.h"]}
{"id": "C93", "title": "Printing binary files", "statement": "The printing tool shows a file written by the binary writer completely and in the order of the file (dimensions, rows, columns, values), a blocked file as one line per record (also when no mode or an unknown one is given, with a notice), and a file of indices as one number per line, ignoring part of an item at the end; the decimal digits printed can be read back. It never refuses a file: with a file that can be opened it exits with code 0 or is undefined. A file cut off after at least one whole value (record) is printed with the last value (its column and value) repeated for everything that is missing, still with code 0; a file cut off anywhere else (for a blocked file: before the end of the first record) and a file that cannot be opened are undefined behaviour.", "quantifier": "all matrices, vectors of indices, file names, arguments, and all lengths at which a file is cut off", "why_tests_cant": "tests use complete files; the wrong output for damaged files looks regular", "anchors": ["src/tools/pprint.c: main", "include/io/output.h: write_bin_COO, write_bin_blocked"]}
{"id": "C94", "title": "Products at the same time", "statement": "A product reads and writes nothing but its result vector and its own temporaries: with other data in memory it gives what it gives alone and leaves that data as it is. Any number of products - of any formats, parallel or serial, of one matrix or several, with the same input vector or different ones - may therefore run at the same time as long as their result vectors differ: no schedule has a data race, and each result is what it is alone. Two products of one matrix into the same result vector do race, for every matrix and input whose product changes that vector, and can lose an update.", "quantifier": "all formats, matrices, vectors, numbers of concurrent products and schedules", "why_tests_cant": "a race shows only under some interleavings; a test cannot run all of them, nor all combinations of formats", "anchors": ["include/spmv/omp/csr.h", "include/spmv/omp/gsb.h: spmv_blocked, spmv_chunk", "include/spmv/coo.h", "include/spmv/omp/dense.h", "include/matrix/cswr.h: spmv", "include/matrix/csbr.2.h: spmv"]}
{"id": "C95", "title": "The comparison program", "statement": "The program result multiplies one matrix in seven further formats and compares each result with that of CSR. As it is written, its two result vectors have no values when the first product reads them: its behaviour is undefined for every file with a matrix that has an element. With the vectors set to zero it runs to the end on every schedule and releases them, compares with the unmodified source each time, and reports the same for Csr2, Cswr, Csbr and Csbr2: no difference if and only if every value of the result equals itself. In exact arithmetic, with no position listed twice, it reports no difference for any format. A matrix too small for the number of threads makes it divide by zero. Without an argument or with a file the reader refuses, the exit code is 1.", "quantifier": "all files, matrices, numbers of threads, schedules, value types and comparisons, and all ways in which blocks may be stored", "why_tests_cant": "undefined behaviour of uninitialised memory usually shows as a zero page in a test; agreement must hold for all matrices and schedules", "anchors": ["src/test/result.cpp: main", "include/test/utils.h: check_results", "include/common.h: vector_zero", "include/utils.h: pick_block_size"]}
{"id": "C96", "title": "Indices outside the matrix: the blocked formats", "statement": "No reader compares an index with the dimensions, and the blocked constructors put an index beyond the last row or column into the last block. Even so, no blocked matrix with such an element is ever built: for every matrix with an element outside the declared dimensions, Csbr, Csbr2, Cgbr and Cgbr2, with given offsets or a constant block size, stop with a failed assertion; nothing undefined happens before. A blocked driver that reads such a file aborts before its benchmark.", "quantifier": "all matrices with at least one element outside, all blockings, thread counts and choices of block kinds", "why_tests_cant": "one wrong index in a large file, at any position and in any block, must be caught", "anchors": ["include/matrix/csbr.h: Coo_to_Csbr", "include/matrix/csbr.2.h: Coo_to_Csbr2", "include/matrix/cgbr.h: Coo_to_Cgbr", "include/matrix/cgbr.2.h: Cgbr2::create", "include/utils.h: index_to_blockindex, calculate_block_id", "src/drivers/blocked.cpp: main"]}
{"id": "C97", "title": "The program that compares block formats on files", "statement": "Given files it can read, whose matrices all seven formats can hold and whose names say size<n>ratio<r>, the program of src/test/block.cpp prints one line per file, with that n and r and the number of elements, and exits with 0; of the arrays it allocates it leaves seven per file unreleased, except for the last file's three of the first format. A later file that cannot be read ends it with exit code 1 after the lines of the others. A file with an index that the short type cannot hold aborts it. Called without arguments, or with a first file that cannot be read, it has undefined behaviour (the destructor of a matrix that was never filled), and so with a first file whose name has another form (variables that were never set); a later file with another name is shown with the label of the file before.", "quantifier": "all lists of files, file contents, names, value types and states of memory", "why_tests_cant": "the error paths are undefined behaviour that a test may not notice; the leak depends on the number of files", "anchors": ["src/test/block.cpp: main", "include/matrix/coo.1.h: Coo::~Coo", "include/matrix/block_coo.1.h: Coo_to_Coo", "include/io/input.h: read_COO"]}
{"id": "C98", "title": "More blocks than the index type can number", "statement": "The blocks are numbered block row by block row modulo the width of the index type. If every element lies inside the matrix and in a block whose number fits (and not all in the block with the largest number), the blocked formats work as documented however many blocks there are. Otherwise, if some element's number modulo the width is not the largest, the constructors of Csbr and Csbr2 end in a failed assertion, and so do those of Cgbr and Cgbr2 whenever an element is outside or its block beyond the last number: no wrong matrix is ever built. If all the numbers equal the largest value, Csbr and Csbr2 read variables that were never set.", "quantifier": "every matrix (elements inside or outside), every blocking with any number of blocks, given offsets or constant sizes, every choice of block formats, number of threads and width of the index type", "why_tests_cant": "needs more than 2^32 blocks, and behaviour depends on which blocks have elements", "anchors": ["include/utils.h:calculate_block_id", "include/matrix/csbr.h:Coo_to_Csbr", "include/matrix/csbr.2.h:Coo_to_Csbr", "include/matrix/cgbr.h:Coo_to_Cgbr", "include/matrix/cgbr.2.h:Coo_to_Cgbr"]}
{"id": "C99", "title": "Unusable input is refused, and no tool changes other files than its own", "statement": "Whatever a file holds, the Matrix Market reader either delivers a matrix with code 0 or no matrix with a code from -4 to -1; a missing file gives -1, a first line naming no type -2, a complex or non-coordinate type -3, and no size line after a usable first line -4. The binary reader gives -1 for a missing file and -2 for one too short for its three numbers; the readers of three files give -1 for a missing row or column file, exit without a value file, and compare numbers never read when the row file is too short. Whatever its arguments and files, a tool that returns has changed only files whose names end in its own suffix (the named output for convert_blocked; prepare also its two temporary files); convert, convert_blocked, sort and expanded change nothing when their exit code is 1.", "quantifier": "all file contents, file systems, names, permutations, block sizes and argument lists", "why_tests_cant": "Tests run the tools on a few well-formed files; what a run leaves untouched, and what is refused, concerns every other file system and every malformed input.", "anchors": ["include/io/input.h:read_mm_COO", "include/io/input.h:read_COO", "dep/mm_io/mm_io.c:mm_read_banner", "src/tools"]}
{"id": "C100", "title": "A block of triplets with short indices holds its elements, but is in Morton order only for small indices", "statement": "Building the triplet variant of the coordinate block copies the elements, only reading the source, and rejects an index that does not fit the short type; its product is y + A x. The Morton code is computed in the short type, so a type of 2h bits orders by the low h bits of the indices: the block is in Morton order if all indices are below 2^h (256 for 16-bit indices), and elements at multiples of 2^h stay in the order they came in.", "quantifier": "all arrays of elements, vectors and pairs of index widths", "why_tests_cant": "The order depends on the bits of every index and on the width of the short type, and a wrong order leaves products right, so no test of results shows it.", "anchors": ["include/matrix/block_coo.2.h:Coo_to_Coo", "include/matrix/block_coo.2.h:spmv", "include/utils.h:bit_interleave", "include/utils.h:sort_triplets_morton"]}
{"id": "C101", "title": "What the printing functions show", "statement": "show of a COO matrix with at most 20 non-zeros writes one line '(row, column, value)' per element in storage order and an empty line; show of a CSR matrix with at most 20 rows, converted from COO, writes one line per row, in order, with the (column,value) pairs of exactly the elements of that row by increasing column; of a larger matrix only a warning is written and nothing of the matrix is read. If the text of a value contains no tab or newline, equal texts mean equal elements (as far as the text of the values tells): in the same order for COO, up to the order for CSR; and with distinct coordinates the CSR text does not depend on the order of the elements in the source. show of a vector writes one line per component. partition_dump writes for every block row the number of its chunks and their sizes, which add up to the number of blocks of that block row.", "quantifier": "all matrices, all ways of printing values, all blockings and numbers of workers", "why_tests_cant": "The text must be right and readable for every matrix; a test compares a few texts.", "anchors": ["include/generic/coo.h:show", "include/matrix/csr.1.h:show", "include/test/utils.h:show", "include/partition.h:partition_dump", "include/matrix/csr.1.h:Coo_to_Csr"]}
{"id": "C102", "title": "A text file that breaks off or holds something else than numbers is read, with code 0, as another matrix", "statement": "Reading a Matrix Market coordinate file whose body is not the announced list of complete entries gives code 0 and this matrix: if the file breaks off inside an entry after at least one complete one, the broken entry is kept, with its missing column and value taken from the entry before (mirrored if the file is symmetric); if the very first entry is broken off, variables never assigned are read; at a word that is no number (a comment among the entries, say) reading stays there and the entry before it is repeated until the announced number of entries (twice that number, if symmetric) is reached; a file of numbers is read by taking them in threes, whatever the lines are and whatever the header says, so that a pattern file of n places gives about 2n/3 elements at other places.", "quantifier": "all files, headers, numbers of entries, positions of the break and words", "why_tests_cant": "Tests read complete files; which matrix a damaged or value-less file turns into depends on where it is damaged, and the reader reports success for all of them.", "anchors": ["include/io/input.h:read_mm_COO", "dep/mm_io/mm_io.c:mm_read_mtx_crd_size"]}
{"id": "C103", "title": "A binary file with a row number outside the matrix, or cut in its rows, is read as another compressed matrix or corrupts memory", "statement": "read_bin_CSR applied to a file written by write_bin_COO for a matrix whose indices are any values of the index type: if some row number is neither a row nor the largest value of the type, the reader writes outside its array of row pointers. If the only such numbers are that largest value, the code is 0 and the number of non-zeros is right, but every row reads the elements of the file from as many positions further on as there are such numbers, and all four products compute that on every schedule. If the file ends after at least one row number, the code is 0 and the matrix has all the announced elements, the missing ones all in the row read last, with no column and no value initialised. If it ends before the first row number or inside one, an indeterminate row number is used.", "quantifier": "all matrices, index types, vectors, schedules and lengths of the file", "why_tests_cant": "Which rows a wrong number or a truncation damages depends on all the elements; the assertion at the end of the reader accepts every one of these files that does not crash it.", "anchors": ["include/io/input.h:read_bin_CSR", "include/io/output.h:write_bin_COO", "include/matrix/csr.1.h:spmv_csr"]}
