(** Csbr.v: model of include/matrix/csbr.h, csbr.2.h, csbr.3.h and of
    include/spmv/omp/csbr.3.h: matrices of CSR blocks (Csbr, Csbr2) and of COO
    blocks of one size (Csbr3). *)
From Verif Require Export Utils Count Kernels Gsb.

Section scan.
  Context {T : Type} `{Widths}.
  (** The loop every blocked constructor runs over the block-sorted elements
      (include/matrix/csbr.h:238-279, csbr.2.h:118-150, csbr.3.h:90-121,
      cgbr.h:290-332 and others): block_index and prev_b start at
      std::numeric_limits<IT>::max(); an element whose block differs from prev_b
      starts a new block.  [new k i b]: what is done for a new block b with index k
      at element i; [add k i e]: what is done for every element. *)
  Definition block_scan {S} (new : nat -> nat -> nat -> S -> outcome S) (add : nat -> nat -> elem T -> S -> outcome S)
      (E : list (elem T)) (st : S) : outcome S :=
    '(_, _, st) ← for_range 0 (length E)
      (fun i '(block_index, prev_b, st) =>
         e ← lget E i;
         '(block_index, prev_b, st) ←
           (if blk e =? prev_b then Ok (block_index, prev_b, st)
            else let k := wadd block_index 1 in st ← new k i (blk e) st; Ok (k, blk e, st));
         st ← add block_index i e st;
         Ok (block_index, prev_b, st)) (itW - 1, itW - 1, st);
    Ok st.

  (** br_offset, br_size, bc_offset, bc_size: variables of the constructors that
      are not initialised before the first block *)
  Record geometry := Geo { g_ro : nat; g_rs : nat; g_co : nat; g_cs : nat }.
  (** include/matrix/csbr.h:250-255 (same in csbr.2.h:127-132): block row, block
      column, and their geometry *)
  Definition block_geometry (roff coff : arr nat) (blockcols b : nat) : outcome (nat * nat * geometry) :=
    br ← div_ b blockcols;
    bc ← mod_ b blockcols;
    ro ← aget roff br;
    co ← aget coff bc;
    ro' ← aget roff (br + 1);
    co' ← aget coff (bc + 1);
    Ok (br, bc, Geo ro (wsub ro' ro) co (wsub co' co)).
  Definition use {A} (v : option A) : outcome A := match v with None => Undef Uninit | Some a => Ok a end.
  (** include/matrix/csbr.h:268-271 (same in csbr.2.h:142-145) *)
  Definition check_inside (g : geometry) (e : elem T) : outcome unit :=
    _ ← assert_ (g_ro g <=? row e);
    _ ← assert_ (row e <? wadd (g_ro g) (g_rs g));
    _ ← assert_ (g_co g <=? col e);
    assert_ (col e <? wadd (g_co g) (g_cs g)).
  (** the assertions on the blocking (include/matrix/csbr.h:224-227, csbr.2.h:107-110) *)
  Definition check_blocking (roff : arr nat) (blockrows rows : nat) (coff : arr nat) (blockcols cols : nat) : outcome unit :=
    _ ← assert_ (blockrows <=? rows);
    _ ← assert_ (blockcols <=? cols);
    r ← aget roff blockrows;
    _ ← assert_ (r =? rows);
    c ← aget coff blockcols;
    assert_ (c =? cols).
End scan.

(** ** Csbr *)
(** a block of a Csbr (include/matrix/csbr.h:24, the fields of Csr that the
    constructor sets at lines 262-265; [cb_pos]: the position in the large arrays
    that the val and col_ind pointers hold; [columns] is never set and never read) *)
Record csbr_block := CsbrBlock { cb_rows : nat; cb_pos : nat; cb_ptr : arr nat }.
(** Csbr (include/matrix/csbr.h:22-46), without the partition *)
Record csbr (T : Type) := Csbr {
  sb_rows : nat; sb_cols : nat; sb_nnz : nat;
  sb_blockrows : nat; sb_blockcols : nat; sb_nnzblocks : nat;
  sb_roff : arr nat; sb_coff : arr nat;
  sb_blocks : arr csbr_block; sb_ptr : arr nat; sb_ind : arr nat;
  sb_colind : arr nat; sb_val : arr T }.
Arguments Csbr {T}. Arguments sb_rows {T}. Arguments sb_cols {T}. Arguments sb_nnz {T}. Arguments sb_blockrows {T}.
Arguments sb_blockcols {T}. Arguments sb_nnzblocks {T}. Arguments sb_roff {T}. Arguments sb_coff {T}. Arguments sb_blocks {T}.
Arguments sb_ptr {T}. Arguments sb_ind {T}. Arguments sb_colind {T}. Arguments sb_val {T}.

Section Csbr.
  Context {T : Type} `{Scalar T} `{Widths}.
  Implicit Types (E : list (elem T)) (b : buf) (x : list T).

  (** what the blocked kernels see of a Csbr (include/matrix/csbr.h:50-70); a
      block's spmv is Csr::spmv, the parallel kernel (csr.1.h:26-29) *)
  Definition csbr_view (A : csbr T) : blocked T :=
    {| bk_blockrows := sb_blockrows A; bk_ptr := sb_ptr A; bk_ind := sb_ind A; bk_nnz := sb_nnz A;
       bk_roff := fun i => aget (sb_roff A) i; bk_coff := fun i => aget (sb_coff A) i;
       bk_nonzeros := fun k => B ← aget (sb_blocks A) k; aget (cb_ptr B) (cb_rows B);
       bk_spmv := fun k x xo b o =>
         B ← lift (aget (sb_blocks A) k);
         spmv_csr (cb_ptr B) 0 (sb_colind A) (sb_val A) (cb_pos B) (cb_rows B) x xo b o |}.

  (** the loop state of the constructor: the current geometry, blockrow_ptr,
      blockcol_ind, blocks, col_ind, val *)
  Definition csbr_st : Type := option geometry * arr nat * arr nat * arr csbr_block * arr nat * arr T.
  (** include/matrix/csbr.h:246-266 *)
  Definition csbr_new (roff coff : arr nat) (blockcols k i id : nat) (st : csbr_st) : outcome csbr_st :=
    let '(_, ptr, ind, blocks, ci, v) := st in
    '(br, bc, g) ← block_geometry roff coff blockcols id;
    ptr ← incr ptr (br + 1);
    ind ← aset ind k bc;
    blocks ← aset blocks k (CsbrBlock (g_rs g) i (new_arr0 0 (wadd (g_rs g) 1)));
    Ok (Some g, ptr, ind, blocks, ci, v).
  (** include/matrix/csbr.h:268-278 *)
  Definition csbr_add (k i : nat) (e : elem T) (st : csbr_st) : outcome csbr_st :=
    let '(g, ptr, ind, blocks, ci, v) := st in
    g ← use g;
    _ ← check_inside g e;
    B ← aget blocks k;
    rp ← incr (cb_ptr B) (wadd (wsub (row e) (g_ro g)) 1);
    blocks ← aset blocks k (CsbrBlock (cb_rows B) (cb_pos B) rp);
    ci ← aset ci i (wsub (col e) (g_co g));
    v ← aset v i (val e);
    Ok (Some g, ptr, ind, blocks, ci, v).
  (** Coo_to_Csbr from a Coo3 (include/matrix/csbr.h:196-300); returns the matrix,
      the partition computed at the end (line 299) and the source, which is sorted
      in place *)
  Definition Coo_to_Csbr (workers : nat) (B : coo T) (roff : arr nat) (blockrows : nat) (coff : arr nat) (blockcols : nat) :
      outcome (csbr T * list (list nat) * coo T) :=
    E ← calculate_block_id (c_elems B) roff blockrows coff blockcols;
    E ← sort_elements_blocks E;
    let nnz := c_nnz B in
    nnzblocks ← count_blocks E;
    _ ← check_blocking roff blockrows (c_rows B) coff blockcols (c_cols B);
    '(_, ptr, ind, blocks, ci, v) ← block_scan (csbr_new roff coff blockcols) csbr_add E
      (None, new_arr0 0 (wadd blockrows 1), new_arr nnzblocks, new_arr nnzblocks, new_arr nnz, new_arr nnz);
    blocks ← for_range 0 nnzblocks
      (fun bi blocks =>
         B ← aget blocks bi;
         rp ← prefix_sum (cb_ptr B) (cb_rows B);
         aset blocks bi (CsbrBlock (cb_rows B) (cb_pos B) rp)) blocks;
    ptr ← prefix_sum ptr blockrows;
    total ← aget ptr blockrows;
    _ ← assert_ (total =? nnzblocks);
    let A := Csbr (c_rows B) (c_cols B) nnz blockrows blockcols nnzblocks roff coff blocks ptr ind ci v in
    parts ← partition_init (csbr_view A) workers;
    Ok (A, parts, Coo (c_rows B) (c_cols B) E).
  (** Coo_to_Csbr with constant block sizes (include/matrix/csbr.h:307-337) *)
  Definition Coo_to_Csbr_const (workers : nat) (B : coo T) (br_size bc_size : nat) : outcome (csbr T * list (list nat) * coo T) :=
    '(blockrows, roff) ← const_offsets (c_rows B) br_size;
    '(blockcols, coff) ← const_offsets (c_cols B) bc_size;
    Coo_to_Csbr workers B roff blockrows coff blockcols.
  (** Coo_to_Csbr from a Coo2 (include/matrix/csbr.h:88-191), up to and including
      the sort at line 112; what follows is not modelled, because that sort
      never ends normally (C12) *)
  Definition Coo2_to_Csbr_sort (B : coo T) (roff : arr nat) (blockrows : nat) (coff : arr nat) (blockcols : nat) : outcome (list (elem T)) :=
    _ ← check_blocking roff blockrows (c_rows B) coff blockcols (c_cols B);
    sort_triplets_blocks (c_elems B) roff blockrows coff blockcols.
  (** Csbr::spmv (include/matrix/csbr.h:76-79); [balanced] is true unless the user
      clears it (line 37) *)
  Definition csbr_spmv (A : csbr T) (parts : list (list nat)) (balanced : bool) x b : prog T unit :=
    spmv_blocked (csbr_view A) parts balanced x b.
End Csbr.

(** ** Csbr2 *)
(** Csbr2 (include/matrix/csbr.2.h:17-36); [s2_rowptr]: the array of row pointer
    arrays, one per block *)
Record csbr2 (T : Type) := Csbr2 {
  s2_rows : nat; s2_cols : nat; s2_nnz : nat;
  s2_blockrows : nat; s2_blockcols : nat; s2_nnzblocks : nat;
  s2_roff : arr nat; s2_coff : arr nat;
  s2_ptr : arr nat; s2_rowptr : arr (arr nat); s2_colind : arr nat; s2_val : arr T }.
Arguments Csbr2 {T}. Arguments s2_rows {T}. Arguments s2_cols {T}. Arguments s2_nnz {T}. Arguments s2_blockrows {T}.
Arguments s2_blockcols {T}. Arguments s2_nnzblocks {T}. Arguments s2_roff {T}. Arguments s2_coff {T}.
Arguments s2_ptr {T}. Arguments s2_rowptr {T}. Arguments s2_colind {T}. Arguments s2_val {T}.

Section Csbr2.
  Context {T : Type} `{Scalar T} `{Widths}.
  Implicit Types (E : list (elem T)) (b : buf) (x : list T).

  Definition csbr2_st : Type := option geometry * arr nat * arr (arr nat) * arr nat * arr T.
  (** include/matrix/csbr.2.h:126-140 *)
  Definition csbr2_new (roff coff : arr nat) (blockcols k i id : nat) (st : csbr2_st) : outcome csbr2_st :=
    let '(_, ptr, rps, ci, v) := st in
    '(br, bc, g) ← block_geometry roff coff blockcols id;
    ptr ← incr ptr (br + 1);
    rps ← aset rps k (new_arr0 0 (wadd (g_rs g) 1));
    Ok (Some g, ptr, rps, ci, v).
  (** include/matrix/csbr.2.h:142-149 *)
  Definition csbr2_add (k i : nat) (e : elem T) (st : csbr2_st) : outcome csbr2_st :=
    let '(g, ptr, rps, ci, v) := st in
    g ← use g;
    _ ← check_inside g e;
    rp ← aget rps k;
    rp ← incr rp (wadd (wsub (row e) (g_ro g)) 1);
    rps ← aset rps k rp;
    ci ← aset ci i (col e);
    v ← aset v i (val e);
    Ok (Some g, ptr, rps, ci, v).
  (** include/matrix/csbr.2.h:172-177: accumulate the counts of one block, starting
      from nnz_count; returns the pointers and the new nnz_count *)
  Definition csbr2_accumulate (rp : arr nat) (block_size nnz_count : nat) : outcome (arr nat * nat) :=
    rp ← aset rp 0 nnz_count;
    rp ← prefix_sum rp block_size;
    n ← aget rp block_size;
    Ok (rp, n).
  (** Coo_to_Csbr for Csbr2 (include/matrix/csbr.2.h:83-182) *)
  Definition Coo_to_Csbr2 (B : coo T) (roff : arr nat) (blockrows : nat) (coff : arr nat) (blockcols : nat) :
      outcome (csbr2 T * coo T) :=
    E ← calculate_block_id (c_elems B) roff blockrows coff blockcols;
    E ← sort_elements_blocks E;
    let nnz := c_nnz B in
    nnzblocks ← count_blocks E;
    _ ← check_blocking roff blockrows (c_rows B) coff blockcols (c_cols B);
    '(_, ptr, rps, ci, v) ← block_scan (csbr2_new roff coff blockcols) csbr2_add E
      (None, new_arr0 0 (wadd blockrows 1), new_arr nnzblocks, new_arr nnz, new_arr nnz);
    ptr ← prefix_sum ptr blockrows;
    '(rps, _) ← for_range 0 blockrows
      (fun br '(rps, nnz_count) =>
         ro' ← aget roff (br + 1);
         ro ← aget roff br;
         let block_size := wsub ro' ro in
         blockrow_start ← aget ptr br;
         blockrow_end ← aget ptr (br + 1);
         for_range blockrow_start blockrow_end
           (fun k '(rps, nnz_count) =>
              rp ← aget rps k;
              '(rp, n) ← csbr2_accumulate rp block_size nnz_count;
              rps ← aset rps k rp;
              Ok (rps, n)) (rps, nnz_count)) (rps, 0);
    total ← aget ptr blockrows;
    _ ← assert_ (total =? nnzblocks);
    Ok (Csbr2 (c_rows B) (c_cols B) nnz blockrows blockcols nnzblocks roff coff ptr rps ci v,
        Coo (c_rows B) (c_cols B) E).
  (** Coo_to_Csbr with constant block sizes (include/matrix/csbr.2.h:189-193 and
      include/generic/gsb.h:14-42) *)
  Definition Coo_to_Csbr2_const (B : coo T) (br_size bc_size : nat) : outcome (csbr2 T * coo T) :=
    '(blockrows, roff) ← const_offsets (c_rows B) br_size;
    '(blockcols, coff) ← const_offsets (c_cols B) bc_size;
    Coo_to_Csbr2 B roff blockrows coff blockcols.

  (** Csbr2::spmv (include/matrix/csbr.2.h:56-77) *)
  Definition csbr2_spmv (A : csbr2 T) x b : prog T unit :=
    parfor (s2_blockrows A) 0 (fun bi =>
      y_offset ← lift (aget (s2_roff A) bi);
      y_next ← lift (aget (s2_roff A) (bi + 1));
      let rows := wsub y_next y_offset in
      blockrow_start ← lift (aget (s2_ptr A) bi);
      blockrow_end ← lift (aget (s2_ptr A) (bi + 1));
      pfor_range blockrow_start blockrow_end (fun k =>
        rp ← lift (aget (s2_rowptr A) k);
        spmv_csr_serial rp 0 (s2_colind A) (s2_val A) 0 rows x 0 b (0 + y_offset))).
End Csbr2.

(** ** Csbr3 *)
(** Csbr3 (include/matrix/csbr.3.h:15-39); [balanced] and [partition] are never set
    by any code of /repo *)
Record csbr3 (T : Type) := Csbr3 {
  s3_rows : nat; s3_cols : nat; s3_nnz : nat; s3_blockrows : nat; s3_blockcols : nat; s3_nnzblocks : nat;
  s3_block_size : nat; s3_block_ptr : arr nat; s3_ind : arr nat; s3_ptr : arr nat;
  s3_rowind : arr nat; s3_colind : arr nat; s3_val : arr T }.
Arguments Csbr3 {T}. Arguments s3_rows {T}. Arguments s3_cols {T}. Arguments s3_nnz {T}. Arguments s3_blockrows {T}.
Arguments s3_blockcols {T}. Arguments s3_nnzblocks {T}. Arguments s3_block_size {T}. Arguments s3_block_ptr {T}.
Arguments s3_ind {T}. Arguments s3_ptr {T}. Arguments s3_rowind {T}. Arguments s3_colind {T}. Arguments s3_val {T}.

Section Csbr3.
  Context {T : Type} `{Scalar T} `{Widths}.
  Implicit Types (E : list (elem T)) (b : buf) (x : list T).

  (** (br_offset, bc_offset), blockrow_ptr, block_ptr, blockcol_ind, row_ind, col_ind, val *)
  Definition csbr3_st : Type := option (nat * nat) * arr nat * arr nat * arr nat * arr nat * arr nat * arr T.
  (** include/matrix/csbr.3.h:97-110 *)
  Definition csbr3_new (block_size blockcols k i id : nat) (st : csbr3_st) : outcome csbr3_st :=
    let '(_, ptr, bptr, ind, ri, ci, v) := st in
    br ← div_ id blockcols;
    bc ← mod_ id blockcols;
    bptr ← aset bptr k i;
    ind ← aset ind k bc;
    ptr ← incr ptr (br + 1);
    Ok (Some (wmul br block_size, wmul bc block_size), ptr, bptr, ind, ri, ci, v).
  (** include/matrix/csbr.3.h:112-120; the conversions to SIT truncate *)
  Definition csbr3_add (block_size k i : nat) (e : elem T) (st : csbr3_st) : outcome csbr3_st :=
    let '(g, ptr, bptr, ind, ri, ci, v) := st in
    '(ro, co) ← use g;
    _ ← assert_ (ro <=? row e);
    _ ← assert_ (row e <? wadd ro block_size);
    _ ← assert_ (co <=? col e);
    _ ← assert_ (col e <? wadd co block_size);
    ri ← aset ri i (swrap (wsub (row e) ro));
    ci ← aset ci i (swrap (wsub (col e) co));
    v ← aset v i (val e);
    Ok (Some (ro, co), ptr, bptr, ind, ri, ci, v).
  (** Coo_to_Csbr for Csbr3 (include/matrix/csbr.3.h:58-128; Coo_to_Blocked at
      130-136 calls it) *)
  Definition Coo_to_Csbr3 (B : coo T) (block_size : nat) : outcome (csbr3 T * coo T) :=
    blockrows ← div_ (wsub (wadd (c_rows B) block_size) 1) block_size;
    blockcols ← div_ (wsub (wadd (c_cols B) block_size) 1) block_size;
    let nnz := c_nnz B in
    E ← calculate_block_id_const (c_elems B) block_size block_size blockcols;
    E ← sort_elements_blocks E;
    nnzblocks ← count_blocks E;
    bptr ← aset (new_arr (wadd nnzblocks 1)) nnzblocks nnz;
    '(_, ptr, bptr, ind, ri, ci, v) ← block_scan (csbr3_new block_size blockcols) (csbr3_add block_size) E
      (None, new_arr0 0 (wadd blockrows 1), bptr, new_arr nnzblocks, new_arr nnz, new_arr nnz, new_arr nnz);
    ptr ← prefix_sum ptr blockrows;
    total ← aget ptr blockrows;
    _ ← assert_ (total =? nnzblocks);
    Ok (Csbr3 (c_rows B) (c_cols B) nnz blockrows blockcols nnzblocks block_size bptr ind ptr ri ci v,
        Coo (c_rows B) (c_cols B) E).

  (** one block (include/spmv/omp/csbr.3.h:29-41 and 65-76) *)
  Definition csbr3_block (A : csbr3 T) x b (o k : nat) : prog T unit :=
    c ← lift (aget (s3_ind A) k);
    let x_offset := wmul c (s3_block_size A) in
    block_start ← lift (aget (s3_block_ptr A) k);
    block_end ← lift (aget (s3_block_ptr A) (k + 1));
    spmv_coo (s3_val A) (s3_rowind A) (s3_colind A) block_start (wsub block_end block_start) x x_offset b o.
  (** spmv_balanced for Csbr3 (include/spmv/omp/csbr.3.h:11-43) *)
  Definition csbr3_spmv_balanced (A : csbr3 T) x b : prog T unit :=
    parfor (s3_blockrows A) 0 (fun bi =>
      blockrow_start ← lift (aget (s3_ptr A) bi);
      blockrow_end ← lift (aget (s3_ptr A) (bi + 1));
      pfor_range blockrow_start blockrow_end (fun k => csbr3_block A x b (0 + wmul bi (s3_block_size A)) k)).
  (** spmv_chunk for Csbr3 (include/spmv/omp/csbr.3.h:48-101) *)
  Fixpoint csbr3_spmv_chunk (fuel : nat) (A : csbr3 T) x (chunks : list nat) (first last : nat) b (o : nat) (π : buf) : prog T unit :=
    match fuel with
    | O => Fail FDiverge
    | S f =>
        if wsub last first =? 1 then
          chunk_start ← lift (lget chunks first);
          chunk_end ← lift (lget chunks last);
          pfor_range chunk_start chunk_end (fun k => csbr3_block A x b o k)
        else
          let middle := wadd first last / 2 in
          Fork (csbr3_spmv_chunk f A x chunks first middle b o (π ++ [false]))
               (alloc π (s3_block_size A) (Some s0) ≫= fun _ =>
                csbr3_spmv_chunk f A x chunks middle last π 0 (π ++ [true]))
               (pfor (s3_block_size A) 0 (fun i => t ← read (π, i); v ← read (b, o + i); write (b, o + i) (sadd v t)) ≫= fun _ =>
                free π (s3_block_size A))
    end.
End Csbr3.
