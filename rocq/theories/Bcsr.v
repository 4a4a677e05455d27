(** Bcsr.v: model of the constructor of include/matrix/bcsr.h.  Bcsr::spmv (68-71) is not
    modelled: it instantiates spmv_blocked, which uses members (blockrow_ptr, blockcol_ind,
    block) that Bcsr does not have, so a program that calls it does not compile. *)
From Verif Require Export Csbr.

(** a block (the fields of Csr, include/matrix/csr.1.h, that the constructor sets); the array
    comes from malloc, so the fields have no value until they are set *)
Record bblock := BBlock { bb_rows : option nat; bb_pos : option nat; bb_ptr : option (arr nat) }.
(** Bcsr (include/matrix/bcsr.h:19-43), without partition and balanced *)
Record bcsr (T : Type) := Bcsr {
  bs_rows : nat; bs_cols : nat; bs_nnz : nat; bs_blockrows : nat; bs_blockcols : nat; bs_nnzblocks : nat;
  bs_roff : arr nat; bs_coff : arr nat; bs_blocks : list bblock; bs_colind : arr nat; bs_val : arr T }.
Arguments Bcsr {T}. Arguments bs_blocks {T}. Arguments bs_nnzblocks {T}.

Section Bcsr.
  Context {T : Type} `{Scalar T} `{Widths}.

  (** current geometry, blocks, col_ind, val *)
  Definition bcsr_st : Type := option geometry * list bblock * arr nat * arr T.
  (** include/matrix/bcsr.h:132-145 *)
  Definition bcsr_new (roff coff : arr nat) (blockcols i id : nat) (st : bcsr_st) : outcome bcsr_st :=
    let '(_, blocks, ci, v) := st in
    '(_, _, g) ← block_geometry roff coff blockcols id;
    blocks ← lset blocks id (BBlock (Some (g_rs g)) (Some i) (Some (new_arr0 0 (wadd (g_rs g) 1))));
    Ok (Some g, blocks, ci, v).
  (** include/matrix/bcsr.h:147-157 *)
  Definition bcsr_add (i : nat) (e : elem T) (st : bcsr_st) : outcome bcsr_st :=
    let '(g, blocks, ci, v) := st in
    g ← use g;
    _ ← check_inside g e;
    B ← lget blocks (blk e);
    rp ← use (bb_ptr B);
    rp ← incr rp (wadd (wsub (row e) (g_ro g)) 1);
    blocks ← lset blocks (blk e) (BBlock (bb_rows B) (bb_pos B) (Some rp));
    ci ← aset ci i (wsub (col e) (g_co g));
    v ← aset v i (val e);
    Ok (Some g, blocks, ci, v).
  (** Coo_to_Bcsr (include/matrix/bcsr.h:79-170).  [b] is what the variable b (line 86)
      contains before its first assignment (line 127): [None] is C++'s "indeterminate", whose
      use is undefined; [Some v] pretends that it holds v. *)
  Definition Coo_to_Bcsr (b : option nat) (B : coo T) (roff : arr nat) (blockrows : nat) (coff : arr nat) (blockcols : nat) :
      outcome (bcsr T * coo T) :=
    E ← calculate_block_id (c_elems B) roff blockrows coff blockcols;
    E ← sort_elements_blocks E;
    let nnz := c_nnz B in
    nnzblocks ← count_blocks E;
    _ ← check_blocking roff blockrows (c_rows B) coff blockcols (c_cols B);
    let nblocks := wmul blockrows blockcols in
    (* lines 119-122 *)
    blocks ← for_range 0 nblocks
      (fun i blocks =>
         k ← use b;
         blk ← lget blocks k;
         lset blocks k (BBlock (Some 0) (bb_pos blk) (bb_ptr blk)))
      (replicate nblocks (BBlock None None None));
    (* lines 124-158; the block number, not an index, selects the block *)
    '(_, blocks, ci, v) ← block_scan (fun _ i id st => bcsr_new roff coff blockcols i id st) (fun _ i e st => bcsr_add i e st) E
      (None, blocks, new_arr nnz, new_arr nnz);
    (* lines 162-169 *)
    blocks ← for_range 0 nnzblocks
      (fun bi blocks =>
         blk ← lget blocks bi;
         rows ← use (bb_rows blk);
         if rows =? 0 then Ok blocks
         else
           rp ← use (bb_ptr blk);
           rp ← for_range 0 rows
             (fun i rp => c ← aget rp (i + 1); p ← aget rp i; aset rp (i + 1) (wadd c p)) rp;
           lset blocks bi (BBlock (bb_rows blk) (bb_pos blk) (Some rp))) blocks;
    Ok (Bcsr (c_rows B) (c_cols B) nnz blockrows blockcols nnzblocks roff coff blocks ci v, Coo (c_rows B) (c_cols B) E).
End Bcsr.
