(** Permute.v: relabelling of indices (include/permute.h). *)
From Verif Require Export ParLib Spec Performs.

(** invert_permutation (include/permute.h:8-19): [new IT[size]] named b, then a parallel
    loop of pinv[p[k]] = k.  p is read only; a cell of pinv that is never written keeps
    no value.  k fits IT because k < size. *)
Definition invert_permutation (b : buf) (p : list nat) (size : nat) : prog nat unit :=
  alloc b size None ≫= fun _ =>
  parfor size 0 (fun k =>
    v ← lift (lget p k);
    write (b, v) k).

(** permute_indeces on an index array (include/permute.h:25-32): the array is the
    buffer b. *)
Definition permute_array (b : buf) (permutation : list nat) (size : nat) : prog nat unit :=
  parfor size 0 (fun i =>
    v ← read (b, i);
    w ← lift (lget permutation v);
    write (b, i) w).

(** permute_indeces on a matrix (include/permute.h:34-42): the array of non-zeros is the
    buffer b, one element per cell (simplification: the row and the column of one
    element are not separate locations, an assignment to a field reads and writes the
    element). *)
Definition set_row {T} (r : nat) (e : elem T) : elem T := Elem r (col e) (val e) (blk e).
Definition set_col {T} (c : nat) (e : elem T) : elem T := Elem (row e) c (val e) (blk e).
Definition permute_matrix {T} (b : buf) (nnz : nat) (permutation : list nat) : prog (elem T) unit :=
  parfor nnz 0 (fun i =>
    e ← read (b, i);
    r ← lift (lget permutation (row e));
    write (b, i) (set_row r e) ≫= fun _ =>
    e' ← read (b, i);
    c ← lift (lget permutation (col e'));
    write (b, i) (set_col c e')).
