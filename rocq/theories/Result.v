(** Result.v: model of src/test/result.cpp, the program that multiplies a matrix in every format
    and compares the results with those of CSR. *)
From Verif Require Export Drivers.

(** the same index type with another short index type *)
Definition with_short (W : Widths) (s : nat) : Widths := {| itW := @itW W; sitW := s |}.

Section Result.
  Context {T : Type} `{Scalar T} {W : Widths} (RT : repr T) (k : nat) (scan_g : bytes -> option T * bytes).
  (** the comparison != of VALTYPE, the values of rand() / RAND_MAX, omp_get_max_threads *)
  Context (neq : T -> T -> bool) (rand : nat -> T) (workers : nat).
  (** the double computation in pick_block_size, and sizeof(VALTYPE) *)
  Context (logbeta : nat -> nat -> N) (val_size : N).
  (** the choice of the format of a block and of balancing, for the two Cgbr matrices; the choice of
      the factory of Cgbr2 and its member [balanced], which is not initialised *)
  Context (choose chooses : nat -> nat -> nat -> kind) (bal bals : nat -> nat -> list (list nat) -> bool).
  Context (choose2 : list (elem T) -> nat -> nat -> kind2) (balanced2 : bool).
  Implicit Types (F : fs) (B : coo T) (x : list T).

  (** the vectors y1 and y2 (result.cpp:22) *)
  Definition y1 : buf := [false].
  Definition y2 : buf := [true].
  (** x = new VALTYPE[n] (result.cpp:56-57): the elements have no value *)
  Definition new_vector (b : buf) (n : nat) : prog T unit := alloc b n None.

  Fixpoint read_vector (b : buf) (n i : nat) : prog T (list T) :=
    match n with
    | O => Ret []
    | S n => v ← read (b, i); l ← read_vector b n (S i); Ret (v :: l)
    end.
  (** check_results(y1, y2, coo3.rows) (result.cpp:101 and the like).  check_results reads the
      elements one by one (C67); here they are read first *)
  Definition check (rows : nat) : prog T Z :=
    v ← read_vector y1 rows 0; w ← read_vector y2 rows 0; lift (check_results neq v w rows).
  (** one part of main, for instance result.cpp:82-103 (Csr2): convert, multiply into y2, compare, and
      clear y2.  The calls of print_info and the times are only printed and not modelled; release
      is not modelled here (C68) *)
  Definition compare_part (convert : coo T -> outcome ((list T -> buf -> prog T unit) * coo T)) B x : prog T (Z * coo T) :=
    lift (convert B) ≫= fun '(m, B) =>
    m x y2 ≫= fun _ =>
    check (c_rows B) ≫= fun r =>
    pfor (c_rows B) 0 (fun i => write (y2, i) s0) ≫= fun _ =>
    Ret (r, B).
  (** the conversions (result.cpp:27-33): Csr2; Cswr with uint8_t and the default width; Csbr, Csbr2;
      Cgbr with INDEXTYPE and with SMALLINDEXTYPE as its short type; Cgbr2 *)
  Definition conv_csr2 B : outcome ((list T -> buf -> prog T unit) * coo T) := '(A, B) ← Coo_to_Csr B; Ok (csr2_spmv A, B).
  Definition conv_cswr B : outcome ((list T -> buf -> prog T unit) * coo T) :=
    '(A, B) ← Coo_to_Cswr (H0 := with_short W 256) B DEFAULT_CSWR_WIDTH; Ok (cswr_spmv A, B).
  Definition conv_csbr (s : nat) B : outcome ((list T -> buf -> prog T unit) * coo T) :=
    '(A, parts, B) ← Coo_to_Csbr_const workers B s s; Ok (csbr_spmv A parts true, B).
  Definition conv_csbr2 (s : nat) B : outcome ((list T -> buf -> prog T unit) * coo T) :=
    '(A, B) ← Coo_to_Csbr2_const B s s; Ok (csbr2_spmv A, B).
  Definition conv_cgbr (s : nat) B : outcome ((list T -> buf -> prog T unit) * coo T) :=
    '(A, balanced, parts, B) ← Coo_to_Cgbr_const (H0 := with_short W itW) choose bal workers B s s; Ok (cgbr_spmv A balanced parts, B).
  Definition conv_cgbr_si (s : nat) B : outcome ((list T -> buf -> prog T unit) * coo T) :=
    '(A, balanced, parts, B) ← Coo_to_Cgbr_const chooses bals workers B s s; Ok (cgbr_spmv A balanced parts, B).
  Definition conv_cgbr2 (s : nat) B : outcome ((list T -> buf -> prog T unit) * coo T) :=
    '(A, parts, B) ← Coo_to_Cgbr2_const (make_block2 choose2) workers B s s; Ok (cgbr2_spmv A balanced2 parts, B).
  (** memcpy(coo3.elements, elements_bk, ...) (result.cpp:203, 229) *)
  Definition restore (backup B : coo T) : coo T := Coo (c_rows B) (c_cols B) (c_elems backup).

  (** main from line 49 on, with the way the two vectors are set up as a parameter; the results of
      the seven comparisons *)
  Definition compare_formats (start : buf -> nat -> prog T unit) B : prog T (list Z) :=
    lift (pick workers logbeta val_size (c_rows B) (c_cols B)) ≫= fun s =>
    let s := if c_rows B <? s then c_rows B else s in
    let s := if c_cols B <? s then c_cols B else s in
    let x := vector_random rand (c_cols B) in
    start y1 (c_rows B) ≫= fun _ =>
    start y2 (c_rows B) ≫= fun _ =>
    lift (Coo_to_Csr B) ≫= fun '(A, B) =>
    csr_spmv A x y1 ≫= fun _ =>
    compare_part conv_csr2 B x ≫= fun '(r1, B) =>
    compare_part conv_cswr B x ≫= fun '(r2, B) =>
    compare_part (conv_csbr s) B x ≫= fun '(r3, B) =>
    compare_part (conv_csbr2 s) B x ≫= fun '(r4, B) =>
    let backup := B in
    compare_part (conv_cgbr s) B x ≫= fun '(r5, B) =>
    compare_part (conv_cgbr_si s) (restore backup B) x ≫= fun '(r6, B) =>
    compare_part (conv_cgbr2 s) (restore backup B) x ≫= fun '(r7, B) =>
    free y1 (c_rows B) ≫= fun _ =>
    free y2 (c_rows B) ≫= fun _ =>
    Ret [r1; r2; r3; r4; r5; r6; r7].
  (** main (result.cpp:19-252): the exit code and the results of the comparisons *)
  Definition result_with (start : buf -> nat -> prog T unit) (args : list bytes) F : prog T (Z * list Z) :=
    match args with
    | [] => Ret (1%Z, [])
    | name :: _ =>
        lift (read_file RT k scan_g F name) ≫= fun '(ret, A) =>
        if negb (ret =? 0)%Z then Ret (1%Z, []) else
        lift (A ← use A; coo_of_read A) ≫= fun B =>
        compare_formats start B ≫= fun r => Ret (0%Z, r)
    end.
  Definition result_main : list bytes -> fs -> prog T (Z * list Z) := result_with new_vector.
End Result.
