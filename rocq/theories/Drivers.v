(** Drivers.v: the benchmark harness (include/test/bench.h, include/common.h:26-58), the
    summary of timings (src/common.cpp:46-65, include/test/utils.h:38-65) and the drivers
    (src/drivers).

    A driver is a program over the heap that holds the result vector; its result is the exit
    code and the reports it prints, in order.  Arguments are argv[1], argv[2], ...; files as in
    Tools.v.  Clock readings are integers (ticks) chosen by the environment; the mean is the
    exact quotient (the code uses double).  Messages, print_info and the releases of matrices
    (Ledger.v) are not modelled. *)
From Verif Require Export Tools Cgbr Permute Simple.
From Coq Require Import QArith.
Local Open Scope nat_scope.

(** ** summaries *)
(** what print_timing_verbose and print_timing_csv print for one method: the number of
    non-zeros and the times from which MFLOP/s are computed (mflops, src/common.cpp:29-32) *)
Record report := Report { rp_nnz : nat; rp_best : Z; rp_median : Z; rp_mean : Q; rp_worst : Z }.
(** std::sort on timings *)
Fixpoint zinsert (v : Z) (l : list Z) : list Z :=
  match l with [] => [v] | a :: l' => if (v <=? a)%Z then v :: l else a :: zinsert v l' end.
Definition zsort (l : list Z) : list Z := foldr zinsert [] l.
Definition zsum (l : list Z) : Z := fold_left Z.add l 0%Z.
(** print_timing_verbose (src/common.cpp:46-53) and print_timing_csv (55-65): both read t[0],
    t[iter/2], the mean of all and t[iter-1] after sorting *)
Definition print_timing (nnz iter : nat) (t : list Z) : outcome report :=
  let t := zsort t in
  best ← lget t 0;
  median ← lget t (iter / 2);
  worst ← (if iter =? 0 then Undef OutOfBounds else lget t (iter - 1));
  Ok (Report nnz best median (inject_Z (zsum t) / inject_Z (Z.of_nat iter)) worst).
(** mean (include/test/utils.h:38-45) *)
Definition mean (data : list Q) : Q := fold_left Qplus data 0%Q / inject_Z (Z.of_nat (length data)).
(** median (include/test/utils.h:47-55): sorts data in place.  n/2 - 1 is computed in the
    unsigned type of n *)
Definition median (data : list Z) : outcome Q :=
  let n := length data in
  let data := zsort data in
  if n mod 2 =? 0 then
    a ← (if n =? 0 then Undef OutOfBounds else lget data (n / 2 - 1));
    b ← lget data (n / 2);
    Ok ((inject_Z a + inject_Z b) / 2)%Q
  else v ← lget data (n / 2); Ok (inject_Z v).

(** ** the harness *)
(** what the harness uses of a matrix (include/test/bench.h:6-35) *)
Record bench (T : Type) := Bench { bm_rows : nat; bm_cols : nat; bm_nonzeros : outcome nat; bm_spmv : list T -> buf -> prog T unit }.
Arguments Bench {T}. Arguments bm_rows {T}. Arguments bm_cols {T}. Arguments bm_nonzeros {T}. Arguments bm_spmv {T}.

Section Bench.
  Context {T : Type} `{Scalar T}.
  (** vector_zero (include/common.h:40-51); aligned_alloc succeeds *)
  Definition vector_zero (b : buf) (size : nat) : prog T unit :=
    alloc b size None ≫= fun _ => pfor size 0 (fun i => write (b, i) s0).
  (** vector_random (include/common.h:29-38); [rand i]: the i-th random value *)
  Definition vector_random (rand : nat -> T) (size : nat) : list T := rand <$> seq 0 size.
  (** the multiplications of the benchmark (include/test/bench.h:19-27) *)
  Definition passes (A : bench T) (iterations : nat) (x : list T) (b : buf) : prog T unit :=
    bm_spmv A x b ≫= fun _ => pfor iterations 0 (fun _ => bm_spmv A x b).
  (** benchmark_spmv_core (include/test/bench.h:6-35); [laps]: the times taken *)
  Definition benchmark (A : bench T) (iterations : nat) (rand : nat -> T) (laps : nat -> Z) (b : buf) : prog T report :=
    let x := vector_random rand (bm_cols A) in
    vector_zero b (bm_rows A) ≫= fun _ =>
    passes A iterations x b ≫= fun _ =>
    lift (nnz ← bm_nonzeros A; print_timing nnz iterations (laps <$> seq 0 iterations)) ≫= fun r =>
    free b (bm_rows A) ≫= fun _ => Ret r.
End Bench.

(** ** the drivers *)
Section Drivers.
  Context {T : Type} `{Scalar T} `{Widths} (RT : repr T) (k : nat) (scan_g : bytes -> option T * bytes).
  (** ITERATIONS, the random values, the clock (per benchmark), omp_get_max_threads *)
  Context (iterations : nat) (rand : nat -> nat -> T) (laps : nat -> nat -> Z) (workers : nat).
  (** the double computation in pick_block_size, and sizeof(VALTYPE) *)
  Context (logbeta : nat -> nat -> N) (val_size : N).
  Implicit Types (F : fs) (B : coo T).

  (** the elements a reader has filled: the first nnz of the allocated ones *)
  Definition coo_of_read (A : rawcoo T) : outcome (coo T) :=
    let n := Io.r_nnz A in
    r ← whole (take n (Io.r_row A)); c ← whole (take n (Io.r_col A)); v ← whole (take n (Io.r_val A));
    Ok (Coo (Io.r_rows A) (Io.r_cols A) ((fun '(r, (c, v)) => Elem r c v 0) <$> zip r (zip c v))).
  (** read_COO on a file (include/io/input.h:334-346) *)
  Definition read_file F (name : bytes) : outcome (Z * option (rawcoo T)) :=
    let fuel := S (match F !! name with Some f => length f | None => 0 end) in
    read_COO name (read_bin_COO RT k (F !! name)) (read_mm_COO scan_g fuel (F !! name)) None.
  Definition pick (rows cols : nat) : outcome nat :=
    s ← pick_block_size 64 (logbeta rows cols) (N.of_nat rows) (N.of_nat cols) val_size (Z.of_nat workers);
    Ok (N.to_nat s).

  (** ** csr.cpp (src/drivers/csr.cpp:14-50), for a conversion to MATRIXTYPE *)
  Definition csr_driver (convert : coo T -> outcome (bench T)) (args : list bytes) F : prog T (Z * list report) :=
    match args with
    | [] => Ret (1%Z, [])
    | name :: _ =>
        lift (read_file F name) ≫= fun '(ret, A) =>
        if negb (ret =? 0)%Z then Ret (1%Z, []) else
        lift (A ← use A; B ← coo_of_read A; convert B) ≫= fun M =>
        benchmark M iterations (rand 0) (laps 0) [] ≫= fun r =>
        Ret (0%Z, [r])
    end.
  (** atoi: no digits give 0 *)
  Definition atoi (s : bytes) : outcome Z :=
    '(r, _) ← scan_d s; Ok (match r with Got z => z | _ => 0%Z end).
  (** ** cswr.cpp (src/drivers/cswr.cpp:15-59) *)
  Definition DEFAULT_CSWR_WIDTH : nat := 32.
  Definition cswr_driver (convert : coo T -> nat -> outcome (bench T)) (args : list bytes) F : prog T (Z * list report) :=
    match (match args with
           | [name] => Some (name, Ok DEFAULT_CSWR_WIDTH)
           | [name; w] => Some (name, z ← atoi w; Ok (Z.to_nat (z mod Z.of_nat itW)))
           | _ => None
           end) with
    | None => Ret (1%Z, [])
    | Some (name, width) =>
        lift width ≫= fun w =>
        lift (read_file F name) ≫= fun '(ret, A) =>
        if negb (ret =? 0)%Z then Ret (1%Z, []) else
        lift (A ← use A; B ← coo_of_read A; convert B w) ≫= fun M =>
        benchmark M iterations (rand 0) (laps 0) [] ≫= fun r =>
        Ret (0%Z, [r])
    end.
  (** ** blocked.cpp (src/drivers/blocked.cpp:17-118); the test argc == 5 (line 43) guards the
      use of the two files of block sizes.  [convert]: Coo_to_Blocked with constant sizes;
      [convert_offsets]: with given offsets *)
  Definition read_sizes F (name : bytes) : outcome (option (nat * arr nat)) :=
    '(ret, size, block_sizes) ← read_bin_array (index_repr k) (F !! name);
    if (ret <? 0)%Z then Ok None else
    off ← size_to_offset (new_arr (size + 1)) block_sizes (wrap size);
    Ok (Some (wrap size, off)).
  Definition blocked_driver (convert : coo T -> nat -> nat -> outcome (bench T))
      (convert_offsets : coo T -> arr nat -> nat -> arr nat -> nat -> outcome (bench T)) (args : list bytes) F : prog T (Z * list report) :=
    let argc := S (length args) in
    if negb (argc =? 2) && negb (argc =? 4) then Ret (1%Z, []) else
    lift (read_file F (nth 0 args [])) ≫= fun '(ret, A) =>
    if (ret <? 0)%Z then Ret (1%Z, []) else
    lift (A ← use A; coo_of_read A) ≫= fun B =>
    lift (if argc =? 5 then
            r ← read_sizes F (nth 1 args []);
            match r with
            | None => Ok None
            | Some (nr, roff) =>
                c ← read_sizes F (nth 2 args []);
                match c with
                | None => Ok None
                | Some (nc, coff) => M ← convert_offsets B roff nr coff nc; Ok (Some M)
                end
            end
          else
            beta ← pick (c_rows B) (c_cols B);
            M ← convert B beta beta; Ok (Some M)) ≫= fun M =>
    match M with
    | None => Ret (1%Z, [])
    | Some M => benchmark M iterations (rand 0) (laps 0) [] ≫= fun r => Ret (0%Z, [r])
    end.
  (** ** bench.cpp (src/drivers/bench.cpp:11-76): the source is converted twice; [to_csr] also
      returns the source it leaves *)
  Definition two_benchmarks (to_csr : coo T -> outcome (bench T * coo T)) (to_gsb : coo T -> nat -> nat -> outcome (bench T)) (B : coo T) (beta : nat) :
      prog T (Z * list report) :=
    lift (to_csr B) ≫= fun '(M1, B) =>
    benchmark M1 iterations (rand 0) (laps 0) [] ≫= fun r1 =>
    lift (to_gsb B beta beta) ≫= fun M2 =>
    benchmark M2 iterations (rand 1) (laps 1) [] ≫= fun r2 =>
    Ret (0%Z, [r1; r2]).
  Definition bench_driver (to_csr : coo T -> outcome (bench T * coo T)) (to_gsb : coo T -> nat -> nat -> outcome (bench T)) (args : list bytes) F :
      prog T (Z * list report) :=
    match args with
    | [name] =>
        lift (read_file F name) ≫= fun '(ret, A) =>
        if (ret <? 0)%Z then Ret (1%Z, []) else
        lift (A ← use A; B ← coo_of_read A; beta ← pick (c_rows B) (c_cols B); Ok (B, beta)) ≫= fun '(B, beta) =>
        two_benchmarks to_csr to_gsb B beta
    | _ => Ret (1%Z, [])
    end.

  (** ** pbench.cpp (src/drivers/pbench.cpp:16-103), INVPERM defined: as bench.cpp, after
      relabelling the matrix by the inverse of the permutation in a file *)
  Definition pbench_driver (to_csr : coo T -> outcome (bench T * coo T)) (to_gsb : coo T -> nat -> nat -> outcome (bench T)) (args : list bytes) F :
      prog T (Z * list report) :=
    match args with
    | [name; perm] =>
        lift (read_file F name) ≫= fun '(ret, A) =>
        if (ret <? 0)%Z then Ret (1%Z, []) else
        lift (A ← use A; B ← coo_of_read A; beta ← pick (c_rows B) (c_cols B); Ok (B, beta)) ≫= fun '(B, beta) =>
        lift (read_bin_array (index_repr k) (F !! perm)) ≫= fun '(ret, perm_size, data) =>
        if (ret <? 0)%Z then Ret (1%Z, []) else
        lift (permutation ← whole data;
              '(_, h) ← run (invert_permutation [false] permutation (wrap perm_size)) ∅;
              inv_permutation ← read_back h [false] 0 (wrap perm_size);
              '(_, E) ← par_do (fun b => permute_matrix b (c_nnz B) inv_permutation) (c_elems B);
              Ok (Coo (c_rows B) (c_cols B) E)) ≫= fun B =>
        two_benchmarks to_csr to_gsb B beta
    | _ => Ret (1%Z, [])
    end.

  (** ** the matrices the drivers are built for (Makefile:120-185).  [nonzeros()] is the stored
      number, except for Csr and Csr2, which read it from the row pointers *)
  Definition csr_bench (A : csr T) : bench T := Bench (csr_rows A) (csr_cols A) (csr_nonzeros A) (csr_spmv A).
  Definition csr2_bench (A : csr T) : bench T := Bench (csr_rows A) (csr_cols A) (csr_nonzeros A) (csr2_spmv A).
  Definition cswr_bench (A : cswr T) : bench T := Bench (w_rows A) (w_cols A) (Ok (w_nnz A)) (cswr_spmv A).
  (** balanced is initialised to true (include/matrix/csbr.h:37) *)
  Definition csbr_bench (A : csbr T) (parts : list (list nat)) : bench T := Bench (sb_rows A) (sb_cols A) (Ok (sb_nnz A)) (csbr_spmv A parts true).
  Definition csbr2_bench (A : csbr2 T) : bench T := Bench (s2_rows A) (s2_cols A) (Ok (s2_nnz A)) (csbr2_spmv A).
  Definition cgbr_bench (A : cgbr T) (balanced : bool) (parts : list (list nat)) : bench T :=
    Bench (cg_rows A) (cg_cols A) (Ok (cg_nnz A)) (cgbr_spmv A balanced parts).
  (** balanced is not initialised (include/matrix/cgbr.2.h:28): any value *)
  Definition cgbr2_bench (A : cgbr T) (balanced : bool) (parts : list (list nat)) : bench T :=
    Bench (cg_rows A) (cg_cols A) (Ok (cg_nnz A)) (cgbr2_spmv A balanced parts).

  Definition to_csr B : outcome (bench T * coo T) := '(A, B') ← Coo_to_Csr B; Ok (csr_bench A, B').
  Definition to_csr1 B : outcome (bench T) := '(A, _) ← Coo_to_Csr B; Ok (csr_bench A).
  Definition to_csr2 B : outcome (bench T) := '(A, _) ← Coo_to_Csr B; Ok (csr2_bench A).
  Definition to_cswr B (width : nat) : outcome (bench T) := '(A, _) ← Coo_to_Cswr B width; Ok (cswr_bench A).
  Definition to_csbr B (br bc : nat) : outcome (bench T) := '(A, parts, _) ← Coo_to_Csbr_const workers B br bc; Ok (csbr_bench A parts).
  Definition to_csbr2 B (br bc : nat) : outcome (bench T) := '(A, _) ← Coo_to_Csbr2_const B br bc; Ok (csbr2_bench A).
  Definition to_cgbr (choose : nat -> nat -> nat -> kind) (bal : nat -> nat -> list (list nat) -> bool) B (br bc : nat) : outcome (bench T) :=
    '(A, balanced, parts, _) ← Coo_to_Cgbr_const choose bal workers B br bc; Ok (cgbr_bench A balanced parts).
  Definition to_cgbr2 (choose : list (elem T) -> nat -> nat -> kind2) (balanced : bool) B (br bc : nat) : outcome (bench T) :=
    '(A, parts, _) ← Coo_to_Cgbr2_const (make_block2 choose) workers B br bc; Ok (cgbr2_bench A balanced parts).
  (** with offsets given *)
  Definition to_csbr_off B roff nr coff nc : outcome (bench T) := '(A, parts, _) ← Coo_to_Csbr workers B roff nr coff nc; Ok (csbr_bench A parts).
  Definition to_csbr2_off B roff nr coff nc : outcome (bench T) := '(A, _) ← Coo_to_Csbr2 B roff nr coff nc; Ok (csbr2_bench A).
  Definition to_cgbr_off (choose : nat -> nat -> nat -> kind) (bal : nat -> nat -> list (list nat) -> bool) B roff nr coff nc : outcome (bench T) :=
    '(A, balanced, parts, _) ← Coo_to_Cgbr choose bal workers B roff nr coff nc; Ok (cgbr_bench A balanced parts).
  Definition to_cgbr2_off (choose : list (elem T) -> nat -> nat -> kind2) (balanced : bool) B roff nr coff nc : outcome (bench T) :=
    '(A, parts, _) ← Coo_to_Cgbr2 (make_block2 choose) workers B roff nr coff nc; Ok (cgbr2_bench A balanced parts).
End Drivers.
