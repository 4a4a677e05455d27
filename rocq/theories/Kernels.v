(** Kernels.v: model of the SpMV kernels of include/spmv that work on one
    coordinate, CSR, compressed-row or dense structure.

    [y] is the buffer [b] of the heap from position [o] on, because blocked
    formats pass y + offset; [x] is the read-only vector from position [xo] on
    (x + offset). *)
From Verif Require Export Par Spec.

Section Kernels.
  Context {T : Type} `{Scalar T}.
  Implicit Types (b : buf) (x : list T).

  (** y[i] += t *)
  Definition yadd b (o i : nat) (t : T) : prog T unit :=
    v ← read (b, o + i); write (b, o + i) (sadd v t).
  (** x[j] *)
  Definition xget x (xo j : nat) : outcome T := lget x (xo + j).
  (** v[k] * x[c[k]] *)
  Definition prod_at (v : arr T) (c : arr nat) x (xo k : nat) : outcome T :=
    vk ← aget v k; ck ← aget c k; xc ← xget x xo ck; Ok (smul vk xc).

  (** spmv_coo (include/spmv/coo.h:4-13); [s] is the position the three array
      pointers point to (val + s, ...) *)
  Definition spmv_coo (v : arr T) (ri ci : arr nat) (s nnz : nat) x (xo : nat) b (o : nat) : prog T unit :=
    pfor nnz 0 (fun i => r ← lift (aget ri (s + i)); t ← lift (prod_at v ci x xo (s + i)); yadd b o r t).
  (** spmv_coo on an array of structures (include/spmv/coo.h:15-23) *)
  Definition spmv_coo_aos (nz : arr (elem T)) (nnz : nat) x (xo : nat) b (o : nat) : prog T unit :=
    pfor nnz 0 (fun i => e ← lift (aget nz i); xc ← lift (xget x xo (col e)); yadd b o (row e) (smul (val e) xc)).

  (** the inner loop y[i] += val[k] * x[col_ind[k]], k = row_start .. row_end-1,
      with val, col_ind starting at position [s] of their arrays *)
  Definition csr_row (v : arr T) (ci : arr nat) (s row_start row_end : nat) x (xo : nat) b (o i : nat) : prog T unit :=
    pfor_range row_start row_end (fun k => t ← lift (prod_at v ci x xo (s + k)); yadd b o i t).
  (** the same with the accumulator in a register: acc += ... *)
  Definition csr_row_reg (v : arr T) (ci : arr nat) (row_start row_end : nat) x (xo : nat) (acc : T) : outcome T :=
    for_range row_start row_end (fun k acc => t ← prod_at v ci x xo k; Ok (sadd acc t)) acc.

  (** spmv_csr (include/spmv/omp/csr.h:6-20).  [rs], [s]: positions row_ptr and
      val / col_ind point to *)
  Definition spmv_csr (rp : arr nat) (rs : nat) (ci : arr nat) (v : arr T) (s M : nat) x (xo : nat) b (o : nat) : prog T unit :=
    parfor M 0 (fun i =>
      row_start ← lift (aget rp (rs + i));
      row_end ← lift (aget rp (rs + (i + 1)));
      csr_row v ci s row_start row_end x xo b o i).
  (** spmv_csr_serial (include/spmv/csr.h:4-24) *)
  Fixpoint csr_serial_loop (rp : arr nat) (rs : nat) (ci : arr nat) (v : arr T) (s n i row_start : nat) x (xo : nat) b (o : nat) : prog T unit :=
    match n with
    | O => Ret tt
    | S n' =>
        row_end ← lift (aget rp (rs + (i + 1)));
        csr_row v ci s row_start row_end x xo b o i ≫= fun _ =>
        csr_serial_loop rp rs ci v s n' (S i) row_end x xo b o
    end.
  Definition spmv_csr_serial (rp : arr nat) (rs : nat) (ci : arr nat) (v : arr T) (s M : nat) x (xo : nat) b (o : nat) : prog T unit :=
    row_end ← lift (aget rp (rs + 0));
    csr_serial_loop rp rs ci v s M 0 row_end x xo b o.

  (** spmv_csr2 (include/spmv/omp/csr.h:22-38); the NonZero array (value, column
      index) is modelled as two arrays with the same index *)
  Definition spmv_csr2 (rp : arr nat) (ci : arr nat) (v : arr T) (M : nat) x (xo : nat) b (o : nat) : prog T unit :=
    parfor M 0 (fun i =>
      row_start ← lift (aget rp i);
      row_end ← lift (aget rp (i + 1));
      res ← read (b, o + i);
      res ← lift (csr_row_reg v ci row_start row_end x xo res);
      write (b, o + i) res).
  (** spmv_csr2_serial (include/spmv/csr.h:26-48) *)
  Fixpoint csr2_serial_loop (rp : arr nat) (ci : arr nat) (v : arr T) (n i row_start : nat) x (xo : nat) b (o : nat) : prog T unit :=
    match n with
    | O => Ret tt
    | S n' =>
        row_end ← lift (aget rp (i + 1));
        (res ← read (b, o + i);
         res ← lift (csr_row_reg v ci row_start row_end x xo res);
         write (b, o + i) res) ≫= fun _ =>
        csr2_serial_loop rp ci v n' (S i) row_end x xo b o
    end.
  Definition spmv_csr2_serial (rp : arr nat) (ci : arr nat) (v : arr T) (M : nat) x (xo : nat) b (o : nat) : prog T unit :=
    row_end ← lift (aget rp 0);
    csr2_serial_loop rp ci v M 0 row_end x xo b o.

  (** one iteration of the compressed-row kernels *)
  Definition crcsr_row (rp nzr ci : arr nat) (v : arr T) x (xo : nat) b (o i : nat) : prog T unit :=
    row_start ← lift (aget rp i);
    row_end ← lift (aget rp (i + 1));
    ri ← lift (aget nzr i);
    y_temp ← read (b, o + ri);
    y_temp ← lift (csr_row_reg v ci row_start row_end x xo y_temp);
    write (b, o + ri) y_temp.
  (** spmv for CompRowCsr (include/spmv/omp/crcsr.h:6-26) *)
  Definition spmv_crcsr (rp nzr ci : arr nat) (v : arr T) (num : nat) x (xo : nat) b (o : nat) : prog T unit :=
    parfor num 0 (crcsr_row rp nzr ci v x xo b o).
  (** spmv_serial for CompRowCsr (include/spmv/crcsr.h:6-26) *)
  Definition spmv_crcsr_serial (rp nzr ci : arr nat) (v : arr T) (num : nat) x (xo : nat) b (o : nat) : prog T unit :=
    pfor num 0 (crcsr_row rp nzr ci v x xo b o).

  (** one row of the dense kernels; i*N + j is computed in type IT *)
  Definition dense_row `{Widths} (v : arr T) (N : nat) x (xo : nat) b (o i : nat) : prog T unit :=
    temp ← read (b, o + i);
    temp ← lift (for_range 0 N (fun j temp =>
      vij ← aget v (wadd (wmul i N) j); xj ← xget x xo j; Ok (sadd temp (smul vij xj))) temp);
    write (b, o + i) temp.
  (** spmv_dense (include/spmv/omp/dense.h:5-17) *)
  Definition spmv_dense `{Widths} (v : arr T) (M N : nat) x (xo : nat) b (o : nat) : prog T unit :=
    parfor M 0 (dense_row v N x xo b o).
  (** spmv_dense_serial (include/spmv/dense.h:4-20) *)
  Definition spmv_dense_serial `{Widths} (v : arr T) (M N : nat) x (xo : nat) b (o : nat) : prog T unit :=
    pfor M 0 (dense_row v N x xo b o).
End Kernels.
