(** Cgbr.v: model of include/matrix/cgbr.h (Cgbr), include/matrix/cgbr.2.h (Cgbr2) and of
    the block factory of include/matrix/blocks.h: blocked matrices in which every block has
    a format of its own. *)
From Verif Require Export Csbr Simple.

(** The formats a block can have: the union Matrix with its tag (include/matrix/cgbr.h:19-34)
    for Cgbr; Coo, BlockCsrSerial, BlockCsrParallel, DenseParallel (blocks.h:17-73,
    dense.h:50-61, coo.1.h) for Cgbr2.  A BlockCsr of Cgbr is [MCsrPar]: its spmv is the
    parallel kernel (block_csr.h:23-26). *)
Inductive mblock (T : Type) :=
  | MCoo (A : coo1 T)
  | MCsr (A : csr T)
  | MCsrPar (A : csr T)
  | MDense (A : dense T).
Arguments MCoo {T}. Arguments MCsr {T}. Arguments MCsrPar {T}. Arguments MDense {T}.
(** a block with the number of non-zeros BlockBase records (include/generic/base.h:10-18) *)
Record gblock (T : Type) := GBlock { gb_nnz : nat; gb_mat : mblock T }.
Arguments GBlock {T}. Arguments gb_nnz {T}. Arguments gb_mat {T}.

(** Cgbr (include/matrix/cgbr.h:101-124) and Cgbr2 (cgbr.2.h:15-39), without the balance flag
    and the partition *)
Record cgbr (T : Type) := Cgbr {
  cg_rows : nat; cg_cols : nat; cg_nnz : nat; cg_blockrows : nat; cg_blockcols : nat; cg_nnzblocks : nat;
  cg_roff : arr nat; cg_coff : arr nat; cg_blocks : arr (gblock T); cg_ptr : arr nat; cg_ind : arr nat;
  cg_type_blocks : arr nat; cg_type_nnz : arr nat }.
Arguments Cgbr {T}. Arguments cg_rows {T}. Arguments cg_cols {T}. Arguments cg_nnz {T}. Arguments cg_blockrows {T}.
Arguments cg_blockcols {T}. Arguments cg_nnzblocks {T}. Arguments cg_roff {T}. Arguments cg_coff {T}. Arguments cg_blocks {T}.
Arguments cg_ptr {T}. Arguments cg_ind {T}. Arguments cg_type_blocks {T}. Arguments cg_type_nnz {T}.

(** MatrixType (include/typedefs.h:33-41) *)
Definition BLOCK_COO : nat := 0.
Definition BLOCK_CSR : nat := 1.
Definition BLOCK_DENSE : nat := 2.
Definition BLOCK_CSR_PAR : nat := 4.
Definition MATRIX_TYPE_NUM : nat := 6.

(** what Coo_to_MatrixBlock (include/matrix/cgbr.h:213-239) decides from the sizes; the
    decision compares floats and is left open: a function of rows, columns, nnz *)
Inductive kind := KCoo | KCsr | KDense.
(** what BlockFactoryDefault::create (include/matrix/blocks.h:90-118) decides *)
Inductive kind2 := K2Coo | K2CsrSerial | K2CsrParallel | K2Dense.

Section Cgbr.
  Context {T : Type} `{Scalar T} `{Widths}.
  Implicit Types (E L : list (elem T)) (b : buf) (x : list T).

  (** A block factory: from the elements of a block (in block coordinates), its rows and
      columns, the block, its type and the elements as the factory leaves them in the source
      array (the COO formats sort it) *)
  Definition factory : Type := list (elem T) -> nat -> nat -> outcome (gblock T * nat * list (elem T)).
  (** Coo_to_MatrixBlock (include/matrix/cgbr.h:213-239) *)
  Definition make_block (choose : nat -> nat -> nat -> kind) : factory := fun L rows cols =>
    match choose rows cols (length L) with
    | KCoo => '(A, L') ← Coo_to_BlockCoo L; Ok (GBlock (length L) (MCoo A), BLOCK_COO, L')
    | KCsr => A ← Coo_to_BlockCsr L rows cols; Ok (GBlock (length L) (MCsrPar A), BLOCK_CSR, L)
    | KDense => A ← Coo_to_Dense L rows cols; Ok (GBlock (length L) (MDense A), BLOCK_DENSE, L)
    end.
  (** BlockFactoryDefault::create (include/matrix/blocks.h:90-118); its choice depends on rows,
      columns and nnz only, but a factory of the user's (the argument of Cgbr2::create) may
      look at the elements *)
  Definition make_block2 (choose : list (elem T) -> nat -> nat -> kind2) : factory := fun L rows cols =>
    match choose L rows cols with
    | K2Coo => '(A, L') ← new_Coo L; Ok (GBlock (length L) (MCoo A), BLOCK_COO, L')
    | K2CsrSerial => A ← Coo_to_BlockCsr L rows cols; Ok (GBlock (length L) (MCsr A), BLOCK_CSR, L)
    | K2CsrParallel => A ← Coo_to_BlockCsr L rows cols; Ok (GBlock (length L) (MCsrPar A), BLOCK_CSR_PAR, L)
    | K2Dense => A ← dense_fill L rows cols; Ok (GBlock (length L) (MDense A), BLOCK_DENSE, L)
    end.

  (** the block's spmv (include/matrix/cgbr.h:56-72; virtual calls in Cgbr2: coo.1.h:56-59,
      blocks.h:53-56 and 69-72, dense.h:57-60) *)
  Definition mblock_spmv (M : mblock T) x (xo : nat) b (o : nat) : prog T unit :=
    match M with
    | MCoo A => coo1_spmv A x xo b o
    | MCsr A => spmv_csr_serial (csr_ptr A) 0 (csr_ind A) (csr_vals A) 0 (csr_rows A) x xo b o
    | MCsrPar A => spmv_csr (csr_ptr A) 0 (csr_ind A) (csr_vals A) 0 (csr_rows A) x xo b o
    | MDense A => dense_spmv A x xo b o
    end.
  (** MatrixBlock::spmv_serial (include/matrix/cgbr.h:78-94) *)
  Definition mblock_spmv_serial (M : mblock T) x (xo : nat) b (o : nat) : prog T unit :=
    match M with
    | MCoo A => coo1_spmv A x xo b o
    | MCsr A | MCsrPar A => spmv_csr_serial (csr_ptr A) 0 (csr_ind A) (csr_vals A) 0 (csr_rows A) x xo b o
    | MDense A => dense_spmv_serial A x xo b o
    end.
  (** MatrixBlock::nonzeros (include/matrix/cgbr.h:36-50): rows * columns for a dense block *)
  Definition mblock_nonzeros (M : mblock T) : outcome nat :=
    match M with
    | MCoo A => Ok (k_nnz A)
    | MCsr A | MCsrPar A => csr_nonzeros A
    | MDense A => Ok (wmul (d_rows A) (d_cols A))
    end.

  (** what the blocked kernels and the partitioner see of the matrix (cgbr.h:129-148 and
      cgbr.2.h:58-77); [nz] is block_nonzeros *)
  Definition cgbr_view (nz : gblock T -> outcome nat) (A : cgbr T) : blocked T :=
    {| bk_blockrows := cg_blockrows A; bk_ptr := cg_ptr A; bk_ind := cg_ind A; bk_nnz := cg_nnz A;
       bk_roff := fun i => aget (cg_roff A) i; bk_coff := fun i => aget (cg_coff A) i;
       bk_nonzeros := fun k => B ← aget (cg_blocks A) k; nz B;
       bk_spmv := fun k x xo b o => B ← lift (aget (cg_blocks A) k); mblock_spmv (gb_mat B) x xo b o |}.
  Definition cgbr1_nonzeros (B : gblock T) : outcome nat := mblock_nonzeros (gb_mat B).
  Definition cgbr2_nonzeros (B : gblock T) : outcome nat := Ok (gb_nnz B).

  (** ** the loop of both constructors (include/matrix/cgbr.h:291-332, cgbr.2.h:125-166) *)
  (** scan forward to the end of the current block (cgbr.h:300, cgbr.2.h:134) *)
  Definition scan_block E (id j : nat) : outcome nat :=
    while_ (S (length E))
      (fun j => if j <? length E then e ← lget E j; Ok (blk e =? id) else Ok false)
      (fun j => Ok (wadd j 1)) j.
  (** the elements i .. j-1 in block coordinates (cgbr.h:314-322, cgbr.2.h:148-155) *)
  Definition rebase E (g : geometry) (i j : nat) : outcome (list (elem T)) :=
    for_range i j (fun k E =>
      e ← lget E k;
      _ ← check_inside g e;
      lset E k (Elem (wsub (row e) (g_ro g)) (wsub (col e) (g_co g)) (val e) (blk e))) E.
  (** i, block_index, source array, blockrow_ptr, blockcol_ind, blocks, type_block_count,
      type_nnz_count *)
  Definition fill_st : Type := nat * nat * list (elem T) * arr nat * arr nat * arr (gblock T) * arr nat * arr nat.
  Definition fill_body (make : factory) (roff coff : arr nat) (blockcols : nat) (st : fill_st) : outcome fill_st :=
    let '(i, k, E, ptr, ind, blocks, tb, tn) := st in
    e ← lget E i;
    j ← scan_block E (blk e) (wadd i 1);
    '(br, bc, g) ← block_geometry roff coff blockcols (blk e);
    ptr ← incr ptr (br + 1);
    ind ← aset ind k bc;
    E ← rebase E g i j;
    '(B, ty, L) ← make (slice i (j - i) E) (g_rs g) (g_cs g);
    let E := take i E ++ L ++ drop j E in
    blocks ← aset blocks k B;
    tb ← incr tb ty;
    n ← aget tn ty;
    tn ← aset tn ty (wadd n (wsub j i));
    Ok (j, wadd k 1, E, ptr, ind, blocks, tb, tn).
  Definition fill_blocks (make : factory) (roff coff : arr nat) (blockcols : nat) (st : fill_st) : outcome fill_st :=
    let '(_, _, E, _, _, _, _, _) := st in
    while_ (S (length E)) (fun '(i, _, E, _, _, _, _, _) => Ok (i <? length E)) (fill_body make roff coff blockcols) st.

  (** everything between the sort and the partition; the block ids and the sort come before
      (cgbr.h:261-262, cgbr.2.h:109-110) *)
  Definition cgbr_fill (make : factory) (B : coo T) E (roff : arr nat) (blockrows : nat) (coff : arr nat) (blockcols nnzblocks : nat) :
      outcome (cgbr T * coo T) :=
    '(_, _, E, ptr, ind, blocks, tb, tn) ← fill_blocks make roff coff blockcols
      (0, 0, E, new_arr0 0 (wadd blockrows 1), new_arr nnzblocks, new_arr nnzblocks,
       new_arr0 0 MATRIX_TYPE_NUM, new_arr0 0 MATRIX_TYPE_NUM);
    ptr ← prefix_sum ptr blockrows;
    total ← aget ptr blockrows;
    _ ← assert_ (total =? nnzblocks);
    Ok (Cgbr (c_rows B) (c_cols B) (c_nnz B) blockrows blockcols nnzblocks roff coff blocks ptr ind tb tn,
        Coo (c_rows B) (c_cols B) E).

  (** is_balanced (include/matrix/cgbr.h:153-177): reads the number of non-zeros of every block
      of every block row; the float comparison with twice the mean is the function [bal].
      Simplification: all block rows are read, also after the first that decides. *)
  Definition is_balanced (bal : nat -> nat -> list (list nat) -> bool) (A : cgbr T) : outcome bool :=
    counts ← for_range 0 (cg_blockrows A)
      (fun i counts =>
         blockrow_start ← aget (cg_ptr A) i;
         blockrow_end ← aget (cg_ptr A) (i + 1);
         br_nnz ← for_range blockrow_start blockrow_end
           (fun k l => _ ← aget (cg_ind A) k; B ← aget (cg_blocks A) k; n ← cgbr1_nonzeros B; Ok (l ++ [n])) [];
         Ok (counts ++ [br_nnz])) [];
    Ok (bal (cg_nnz A) (cg_blockrows A) counts).

  (** Coo_to_Cgbr for Cgbr (include/matrix/cgbr.h:244-347); returns the matrix, the balance flag,
      the partition (only made when not balanced) and the source *)
  Definition Coo_to_Cgbr (choose : nat -> nat -> nat -> kind) (bal : nat -> nat -> list (list nat) -> bool) (workers : nat)
      (B : coo T) (roff : arr nat) (blockrows : nat) (coff : arr nat) (blockcols : nat) : outcome (cgbr T * bool * list (list nat) * coo T) :=
    E ← calculate_block_id (c_elems B) roff blockrows coff blockcols;
    E ← sort_elements_blocks E;
    nnzblocks ← count_blocks E;
    _ ← check_blocking roff blockrows (c_rows B) coff blockcols (c_cols B);
    '(A, B') ← cgbr_fill (make_block choose) B E roff blockrows coff blockcols nnzblocks;
    balanced ← is_balanced bal A;
    parts ← (if balanced : bool then Ok [] else partition_init (cgbr_view cgbr1_nonzeros A) workers);
    Ok (A, balanced, parts, B').
  (** Cgbr2::create (include/matrix/cgbr.2.h:82-177, and the wrappers 179-223), for any
      factory; [balanced] is never set *)
  Definition Coo_to_Cgbr2 (make : factory) (workers : nat)
      (B : coo T) (roff : arr nat) (blockrows : nat) (coff : arr nat) (blockcols : nat) : outcome (cgbr T * list (list nat) * coo T) :=
    _ ← check_blocking roff blockrows (c_rows B) coff blockcols (c_cols B);
    E ← calculate_block_id (c_elems B) roff blockrows coff blockcols;
    E ← sort_elements_blocks E;
    nnzblocks ← count_blocks E;
    '(A, B') ← cgbr_fill make B E roff blockrows coff blockcols nnzblocks;
    parts ← partition_init (cgbr_view cgbr2_nonzeros A) workers;
    Ok (A, parts, B').
  (** constant block sizes (include/matrix/cgbr.h:352-359, cgbr.2.h:211-215, include/generic/gsb.h:14-42) *)
  Definition Coo_to_Cgbr_const (choose : nat -> nat -> nat -> kind) (bal : nat -> nat -> list (list nat) -> bool) (workers : nat)
      (B : coo T) (br_size bc_size : nat) : outcome (cgbr T * bool * list (list nat) * coo T) :=
    '(blockrows, roff) ← const_offsets (c_rows B) br_size;
    '(blockcols, coff) ← const_offsets (c_cols B) bc_size;
    Coo_to_Cgbr choose bal workers B roff blockrows coff blockcols.
  Definition Coo_to_Cgbr2_const (make : factory) (workers : nat) (B : coo T) (br_size bc_size : nat) : outcome (cgbr T * list (list nat) * coo T) :=
    '(blockrows, roff) ← const_offsets (c_rows B) br_size;
    '(blockcols, coff) ← const_offsets (c_cols B) bc_size;
    Coo_to_Cgbr2 make workers B roff blockrows coff blockcols.

  (** Cgbr::spmv (include/matrix/cgbr.h:182-185), Cgbr2::spmv (cgbr.2.h:52-55) *)
  Definition cgbr_spmv (A : cgbr T) (balanced : bool) (parts : list (list nat)) x b : prog T unit :=
    spmv_blocked (cgbr_view cgbr1_nonzeros A) parts balanced x b.
  Definition cgbr2_spmv (A : cgbr T) (balanced : bool) (parts : list (list nat)) x b : prog T unit :=
    spmv_blocked (cgbr_view cgbr2_nonzeros A) parts balanced x b.
  (** Cgbr::spmv_serial (include/matrix/cgbr.h:187-208) *)
  Definition cgbr_spmv_serial (A : cgbr T) x b : prog T unit :=
    pfor (cg_blockrows A) 0 (fun bi =>
      blockrow_start ← lift (aget (cg_ptr A) bi);
      blockrow_end ← lift (aget (cg_ptr A) (bi + 1));
      y_offset ← lift (aget (cg_roff A) bi);
      pfor_range blockrow_start blockrow_end (fun k =>
        c ← lift (aget (cg_ind A) k);
        x_offset ← lift (aget (cg_coff A) c);
        B ← lift (aget (cg_blocks A) k);
        mblock_spmv_serial (gb_mat B) x x_offset b (0 + y_offset))).
End Cgbr.
