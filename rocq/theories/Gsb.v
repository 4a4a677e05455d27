(** Gsb.v: model of include/partition.h and of the blocked SpMV kernels of
    include/spmv/omp/gsb.h, which every blocked format uses. *)
From Verif Require Export Base Par Spec Kernels.

(** What the kernels use of a blocked matrix (include/spmv/omp/gsb.h:92-99,
    include/partition.h:23-34): blockrows, blockrow_ptr, blockcol_ind, nnz,
    get_block_row_offset, get_block_column_offset, block_nonzeros, and
    block(k)->spmv(x + xo, y + o).  [bk_spmv k x xo b o] is the last one; y is the
    buffer [b] from position [o] on. *)
Record blocked (T : Type) := Blocked {
  bk_blockrows : nat;
  bk_ptr : arr nat;
  bk_ind : arr nat;
  bk_nnz : nat;
  bk_roff : nat -> outcome nat;
  bk_coff : nat -> outcome nat;
  bk_nonzeros : nat -> outcome nat;
  bk_spmv : nat -> list T -> nat -> buf -> nat -> prog T unit }.
Arguments Blocked {T}. Arguments bk_blockrows {T}. Arguments bk_ptr {T}. Arguments bk_ind {T}.
Arguments bk_nnz {T}. Arguments bk_roff {T}. Arguments bk_coff {T}. Arguments bk_nonzeros {T}. Arguments bk_spmv {T}.

Section Gsb.
  Context {T : Type} `{Scalar T} `{Widths}.
  Implicit Types (A : blocked T) (x : list T) (b : buf).

  (** the threshold min_nnz (include/partition.h:26, PARTITION_FACTOR = 1 and
      PARTITION_FACTOR_INV = 2 in include/params.h, RT_WORKERS = number of
      OpenMP threads) *)
  Definition min_nnz (nnz workers : nat) : outcome nat := div_ (wmul 1 nnz) (wmul 2 workers).

  (** partition_blockrow (include/partition.h:23-46).  [chunks] is the
      std::vector of the BlockRowPartition; returns it and the function's return
      value *)
  Definition partition_blockrow A (workers start end_ : nat) : outcome (list nat * nat) :=
    threshold ← min_nnz (bk_nnz A) workers;
    '(chunks, _) ← for_range start end_
      (fun k '(chunks, nnz) =>
         n ← bk_nonzeros A k;
         let nnz := wadd nnz n in
         if (threshold <? nnz) && (k <? wsub end_ 1) then Ok (chunks ++ [k], 0) else Ok (chunks, nnz))
      ([start], 0);
    let chunks := chunks ++ [end_] in
    Ok (chunks, length chunks).
  (** partition_init (include/partition.h:68-91): one partition per block row *)
  Definition partition_init A (workers : nat) : outcome (list (list nat)) :=
    for_range 0 (bk_blockrows A)
      (fun br parts =>
         start ← aget (bk_ptr A) br;
         end_ ← aget (bk_ptr A) (br + 1);
         '(chunks, _) ← partition_blockrow A workers start end_;
         Ok (parts ++ [chunks])) [].

  (** one turn of the loops over blocks (spmv/omp/gsb.h:27-31 and 82-87) *)
  Definition one_block A x b (o k : nat) : prog T unit :=
    c ← lift (aget (bk_ind A) k);
    x_offset ← lift (bk_coff A c);
    bk_spmv A k x x_offset b o.

  (** spmv_chunk (include/spmv/omp/gsb.h:13-57), RT_SYNCHED = 0
      (include/rt.h).  [π] names the temporary of this activation; the task of
      the left half may allocate below π ++ [false], the right half below
      π ++ [true].  The recursion carries fuel. *)
  Fixpoint spmv_chunk (fuel : nat) A x (chunks : list nat) (first last bsize : nat) b (o : nat) (π : buf) : prog T unit :=
    match fuel with
    | O => Fail FDiverge
    | S f =>
        if wsub last first =? 1 then
          bstart ← lift (lget chunks first);
          bend ← lift (lget chunks last);
          pfor_range bstart bend (fun k => one_block A x b o k)
        else
          let middle := wadd first last / 2 in
          Fork (spmv_chunk f A x chunks first middle bsize b o (π ++ [false]))
               (alloc π bsize (Some s0) ≫= fun _ =>
                spmv_chunk f A x chunks middle last bsize π 0 (π ++ [true]))
               (pfor bsize 0 (fun i => t ← read (π, i); v ← read (b, o + i); write (b, o + i) (sadd v t)) ≫= fun _ =>
                free π bsize)
    end.

  (** spmv_balanced (include/spmv/omp/gsb.h:63-89) *)
  Definition spmv_balanced A x b : prog T unit :=
    parfor (bk_blockrows A) 0 (fun bi =>
      blockrow_start ← lift (aget (bk_ptr A) bi);
      blockrow_end ← lift (aget (bk_ptr A) (bi + 1));
      y_offset ← lift (bk_roff A bi);
      pfor_range blockrow_start blockrow_end (fun k => one_block A x b (0 + y_offset) k)).

  (** spmv_blocked (include/spmv/omp/gsb.h:100-127); block row bi's temporaries
      are named below b ++ 1^bi 0 *)
  Definition temp_name b (bi : nat) : buf := b ++ replicate bi true ++ [false].
  Definition spmv_blocked A (partition : list (list nat)) (balanced : bool) x b : prog T unit :=
    if balanced then spmv_balanced A x b
    else parfor (bk_blockrows A) 0 (fun bi =>
      chunks ← lift (lget partition bi);
      let nchunks := wrap (length chunks - 1) in
      y_start ← lift (bk_roff A bi);
      y_end ← lift (bk_roff A (bi + 1));
      spmv_chunk (S nchunks) A x chunks 0 nchunks (wsub y_end y_start) b (0 + y_start) (temp_name b bi)).
End Gsb.
