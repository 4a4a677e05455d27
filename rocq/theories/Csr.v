(** Csr.v: model of include/matrix/csr.1.h, csr.2.h, block_csr.h, the CSR blocks of
    blocks.h and the wrappers of include/generic/csr.h.  (Coo_to_Csr on three
    coordinate arrays, csr.1.h:42-65, cannot be instantiated: the sort_triplets it
    calls does not exist.) *)
From Verif Require Export Utils Count Kernels.

(** Csr (include/matrix/csr.1.h:13-35), Csr2 (csr.2.h:17-36: its array of
    (value, index) pairs is modelled as two arrays), BlockCsr (block_csr.h:8-32),
    BlockCsrSerial / BlockCsrParallel (blocks.h:17-73) *)
Record csr (T : Type) := Csr { csr_rows : nat; csr_cols : nat; csr_ptr : arr nat; csr_ind : arr nat; csr_vals : arr T }.
Arguments Csr {T}. Arguments csr_rows {T}. Arguments csr_cols {T}. Arguments csr_ptr {T}. Arguments csr_ind {T}. Arguments csr_vals {T}.

Section Csr.
  Context {T : Type} `{Scalar T} `{Widths}.
  Implicit Types (E : list (elem T)) (b : buf).

  (** nonzeros() (include/matrix/csr.1.h:23) *)
  Definition csr_nonzeros (A : csr T) : outcome nat := aget (csr_ptr A) (csr_rows A).

  (** The construction loops over a sorted array, the same code in
      include/matrix/csr.1.h:82-103, csr.2.h:55-77, block_csr.h:46-65 and
      blocks.h:29-43; [conv] is the conversion from IT to the type of col_ind: the
      identity in the first two, truncation to SIT in the last two. *)
  Definition csr_build (conv : nat -> nat) E (rows cols : nat) : outcome (csr T) :=
    let nnz := length E in
    '(ind, v, ptr) ← for_range 0 nnz
      (fun i '(ind, v, ptr) =>
         e ← lget E i;
         ind ← aset ind i (conv (col e));
         v ← aset v i (val e);
         ptr ← incr ptr (wadd (row e) 1);
         Ok (ind, v, ptr)) (new_arr nnz, new_arr nnz, new_arr0 0 (wadd rows 1));
    ptr ← prefix_sum ptr rows;
    total ← aget ptr rows;
    _ ← assert_ (total =? nnz);
    Ok (Csr rows cols ptr ind v).

  (** Coo_to_Csr for Csr (include/matrix/csr.1.h:73-104) and for Csr2
      (csr.2.h:45-78) with isSorted = false, allocate = true, as the wrappers of
      include/generic/csr.h:22-34 call them; returns also the source, which is
      sorted in place *)
  Definition Coo_to_Csr (B : coo T) : outcome (csr T * coo T) :=
    E ← sort_triplets true (c_elems B);
    A ← csr_build (fun c => c) E (c_rows B) (c_cols B);
    Ok (A, Coo (c_rows B) (c_cols B) E).
  (** Coo_to_Csr for BlockCsr (include/matrix/block_csr.h:37-72), isSorted = true
      by default; the same loops are the constructor of BlockCsrSerial
      (include/matrix/blocks.h:25-44) *)
  Definition Coo_to_BlockCsr E (rows cols : nat) : outcome (csr T) := csr_build swrap E rows cols.

  (** Csr::spmv and Csr::spmv_serial (csr.1.h:26-34; same in block_csr.h and blocks.h) *)
  Definition csr_spmv (A : csr T) (x : list T) b : prog T unit :=
    spmv_csr (csr_ptr A) 0 (csr_ind A) (csr_vals A) 0 (csr_rows A) x 0 b 0.
  Definition csr_spmv_serial (A : csr T) (x : list T) b : prog T unit :=
    spmv_csr_serial (csr_ptr A) 0 (csr_ind A) (csr_vals A) 0 (csr_rows A) x 0 b 0.
  (** Csr2::spmv and Csr2::spmv_serial (csr.2.h:27-35) *)
  Definition csr2_spmv (A : csr T) (x : list T) b : prog T unit :=
    spmv_csr2 (csr_ptr A) (csr_ind A) (csr_vals A) (csr_rows A) x 0 b 0.
  Definition csr2_spmv_serial (A : csr T) (x : list T) b : prog T unit :=
    spmv_csr2_serial (csr_ptr A) (csr_ind A) (csr_vals A) (csr_rows A) x 0 b 0.
End Csr.
