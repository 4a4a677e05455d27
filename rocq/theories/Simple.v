(** Simple.v: model of the coordinate formats (include/matrix/coo.*.h,
    block_coo.1.h, include/generic/coo.h), of the wide-row format
    (include/matrix/cswr.h), compressed-row CSR (include/matrix/crcsr.h) and the
    dense format (include/matrix/dense.h). *)
From Verif Require Export Csr.

(** Coo (include/matrix/coo.1.h:11-60), BlockCoo (block_coo.1.h:9-37): three arrays.
    An array of structures as destination of a copy is modelled as the arrays of its
    fields. *)
Record coo1 (T : Type) := Coo1 { k_nnz : nat; k_I : arr nat; k_J : arr nat; k_val : arr T }.
Arguments Coo1 {T}. Arguments k_nnz {T}. Arguments k_I {T}. Arguments k_J {T}. Arguments k_val {T}.

(** Cswr (include/matrix/cswr.h:16-41) *)
Record cswr (T : Type) := Cswr { w_rows : nat; w_cols : nat; w_nwrows : nat; w_width : nat; w_nnz : nat;
  w_ptr : arr nat; w_row : arr nat; w_col : arr nat; w_val : arr T }.
Arguments Cswr {T}. Arguments w_rows {T}. Arguments w_cols {T}. Arguments w_nwrows {T}. Arguments w_width {T}.
Arguments w_nnz {T}. Arguments w_ptr {T}. Arguments w_row {T}. Arguments w_col {T}. Arguments w_val {T}.

(** CompRowCsr (include/matrix/crcsr.h:14-26) *)
Record crcsr (T : Type) := CrCsr { r_num : nat; r_ptr : arr nat; r_rows : arr nat; r_ind : arr nat; r_val : arr T }.
Arguments CrCsr {T}. Arguments r_num {T}. Arguments r_ptr {T}. Arguments r_rows {T}. Arguments r_ind {T}. Arguments r_val {T}.

(** DenseSerial / DenseParallel / BlockDense (include/matrix/dense.h:15-88) *)
Record dense (T : Type) := Dense { d_rows : nat; d_cols : nat; d_val : arr T }.
Arguments Dense {T}. Arguments d_rows {T}. Arguments d_cols {T}. Arguments d_val {T}.

Section Simple.
  Context {T : Type} `{Scalar T} `{Widths}.
  Implicit Types (E : list (elem T)) (b : buf).

  (** ** coordinate formats *)
  (** the copy loop with set_point (include/generic/coo.h:12-19, 45-49, 61-63, 75-77);
      [conv] is the conversion to the destination's index type *)
  Definition copy_points (conv : nat -> nat) E : outcome (coo1 T) :=
    let nnz := length E in
    '(ri, ci, v) ← for_range 0 nnz
      (fun i '(ri, ci, v) =>
         e ← lget E i;
         ri ← aset ri i (conv (row e));
         ci ← aset ci i (conv (col e));
         v ← aset v i (val e);
         Ok (ri, ci, v)) (new_arr nnz, new_arr nnz, new_arr nnz);
    Ok (Coo1 nnz ri ci v).
  (** Coo_to_Coo (include/generic/coo.h:38-80): the destination has index type IT
      ([conv] the identity) or SIT ([swrap], Coo with short indices); the source is
      only read *)
  Definition Coo_to_Coo (conv : nat -> nat) (B : coo T) : outcome (nat * nat * coo1 T) :=
    A ← copy_points conv (c_elems B);
    Ok (c_rows B, c_cols B, A).
  (** the constructor of Coo used for blocks (include/matrix/coo.1.h:19-31): Morton
      sort of the source, no range check *)
  Definition new_Coo E : outcome (coo1 T * list (elem T)) :=
    E ← sort_triplets_morton E;
    A ← copy_points swrap E;
    Ok (A, E).
  (** Coo_to_Coo for BlockCoo (include/matrix/block_coo.1.h:44-68); [1 << (8 * sizeof(SIT))]
      is computed in int, so a 32-bit SIT makes the shift undefined *)
  Definition Coo_to_BlockCoo E : outcome (coo1 T * list (elem T)) :=
    _ ← (if sitW <? itW then
           if (2147483648 <=? N.of_nat sitW)%N then Undef BadShift
           else for_range 0 (length E)
                  (fun i _ => e ← lget E i; assert_ ((row e <? sitW) && (col e <? sitW))) tt
         else Ok tt);
    E ← sort_triplets_morton E;
    A ← copy_points swrap E;
    Ok (A, E).
  (** spmv of Coo2, Coo3 (coo.2.h:34-37, coo.3.h:34-37) *)
  Definition coo_spmv (B : coo T) (x : list T) b : prog T unit :=
    spmv_coo_aos (full (c_elems B)) (c_nnz B) x 0 b 0.
  (** spmv of Coo, BlockCoo (coo.1.h:56-59, block_coo.1.h:33-36) *)
  Definition coo1_spmv (A : coo1 T) (x : list T) (xo : nat) b (o : nat) : prog T unit :=
    spmv_coo (k_val A) (k_I A) (k_J A) 0 (k_nnz A) x xo b o.

  (** ** wide rows *)
  (** Coo_to_Cswr (include/matrix/cswr.h:46-83) *)
  Definition Coo_to_Cswr (B : coo T) (width : nat) : outcome (cswr T * coo T) :=
    let rows := c_rows B in
    let nnz := c_nnz B in
    nwrows ← div_ (wsub (wadd rows width) 1) width;
    E ← sort_triplets_widerows (c_elems B) width;
    '(ptr, R, C, v) ← for_range 0 nnz
      (fun i '(ptr, R, C, v) =>
         e ← lget E i;
         wr ← div_ (row e) width;
         ptr ← incr ptr (wadd wr 1);
         r ← mod_ (row e) width;
         R ← aset R i (swrap r);
         C ← aset C i (col e);
         v ← aset v i (val e);
         ri ← aget R i;
         _ ← assert_ (ri <? width);
         Ok (ptr, R, C, v)) (new_arr0 0 (wadd nwrows 1), new_arr nnz, new_arr nnz, new_arr nnz);
    ptr ← prefix_sum ptr nwrows;
    total ← aget ptr nwrows;
    _ ← assert_ (total =? nnz);
    Ok (Cswr rows (c_cols B) nwrows width nnz ptr R C v, Coo rows (c_cols B) E).
  (** Cswr::spmv (include/matrix/cswr.h:27-40) *)
  Definition cswr_spmv (A : cswr T) (x : list T) b : prog T unit :=
    parfor (w_nwrows A) 0 (fun i =>
      wrow_start ← lift (aget (w_ptr A) i);
      wrow_end ← lift (aget (w_ptr A) (i + 1));
      spmv_coo (w_val A) (w_row A) (w_col A) wrow_start (wsub wrow_end wrow_start) x 0 b (wmul (w_width A) i)).

  (** ** compressed-row CSR *)
  (** Coo_to_CrCsr (include/matrix/crcsr.h:34-73).  [init] is what new IT[nnzrows + 1]
      leaves in row_ptr: cells without a value ([new_arr]); it is a parameter only so
      that the effect of the missing initialisation can be stated. *)
  Definition Coo_to_CrCsr_from (init : nat -> arr nat) E (nnzrows : nat) : outcome (crcsr T * list (elem T)) :=
    let nnz := length E in
    E ← sort_triplets true E;
    e0 ← lget E 0;
    nz ← aset (new_arr nnzrows) 0 (row e0);
    '(cur, nz, ptr, C, v) ← for_range 0 nnz
      (fun i '(cur, nz, ptr, C, v) =>
         e ← lget E i;
         C ← aset C i (col e);
         v ← aset v i (val e);
         r ← aget nz cur;
         '(cur, nz) ← (if negb (r =? row e) then
                         let cur := wadd cur 1 in
                         nz ← aset nz cur (row e);
                         Ok (cur, nz)
                       else Ok (cur, nz));
         ptr ← incr ptr (wadd cur 1);
         Ok (cur, nz, ptr, C, v)) (0, nz, init (wadd nnzrows 1), new_arr nnz, new_arr nnz);
    _ ← assert_ (cur =? wsub nnzrows 1);
    ptr ← prefix_sum ptr nnzrows;
    total ← aget ptr nnzrows;
    _ ← assert_ (total =? nnz);
    Ok (CrCsr nnzrows ptr nz C v, E).
  Definition Coo_to_CrCsr_rows E (nnzrows : nat) : outcome (crcsr T * list (elem T)) :=
    Coo_to_CrCsr_from new_arr E nnzrows.
  (** the wrapper (include/matrix/crcsr.h:81-86): counts before anything is sorted *)
  Definition Coo_to_CrCsr E : outcome (crcsr T * list (elem T)) :=
    nnzrows ← count_nnz_rows E;
    Coo_to_CrCsr_rows E nnzrows.
  Definition crcsr_spmv (A : crcsr T) (x : list T) b : prog T unit :=
    spmv_crcsr (r_ptr A) (r_rows A) (r_ind A) (r_val A) (r_num A) x 0 b 0.
  Definition crcsr_spmv_serial (A : crcsr T) (x : list T) b : prog T unit :=
    spmv_crcsr_serial (r_ptr A) (r_rows A) (r_ind A) (r_val A) (r_num A) x 0 b 0.

  (** ** dense *)
  (** the loop of Coo_to_Dense and of DenseSerial's constructor
      (include/matrix/dense.h:26-32, 106-112) *)
  Definition dense_fill E (rows cols : nat) : outcome (dense T) :=
    v ← for_range 0 (length E)
      (fun i v => e ← lget E i; aset v (wadd (wmul (row e) cols) (col e)) (val e))
      (new_arr0 s0 (wmul rows cols));
    Ok (Dense rows cols v).
  (** Coo_to_Dense (include/matrix/dense.h:96-113) *)
  Definition Coo_to_Dense E (rows cols : nat) : outcome (dense T) :=
    _ ← assert_ (rows <=? wmul rows cols);
    dense_fill E rows cols.
  Definition dense_spmv (A : dense T) (x : list T) (xo : nat) b (o : nat) : prog T unit :=
    spmv_dense (d_val A) (d_rows A) (d_cols A) x xo b o.
  Definition dense_spmv_serial (A : dense T) (x : list T) (xo : nat) b (o : nat) : prog T unit :=
    spmv_dense_serial (d_val A) (d_rows A) (d_cols A) x xo b o.
End Simple.
