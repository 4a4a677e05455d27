(** BlockTest.v: model of src/test/block.cpp, the program that times the multiplication of small
    matrices in the formats a block can have.
    Modelled: arguments, reading, the label taken from the file name, the conversions (whether they
    succeed and how they reorder the triplets), what is allocated and released, the line printed
    for a file (without the times), the exit code, the destructor of the local Coo.
    Not modelled: the multiplications themselves (C15 to C27); INDEXTYPE is int in this program, an
    unsigned type here. *)
From Verif Require Export Drivers.
From Verif Require Ledger.
From stdpp Require Import gmap.
Import Ledger (led, led_ret, led_bind).

(** an operation that touches no memory of its own *)
Definition pure {A} (o : outcome A) : led A := fun m => a ← o; Ok (a, m).

(** basename (POSIX, <libgen.h>), for names that do not end in '/': what follows the last '/' *)
Definition basename (s : bytes) : bytes := reverse (span (fun c => negb (c =? 47)) (reverse s)).1.

Section BlockTest.
  Context {T : Type} `{Scalar T} `{Widths} (RT : repr T) (k : nat) (scan_g : bytes -> option T * bytes).
  (** float and its conversion %f of scanf, from the first character that is no space *)
  Context {R : Type} (scan_f : bytes -> option R * bytes).
  (** see Ledger.v *)
  Context (strict : bool).
  Implicit Types (F : fs) (B : coo T).

  (** the variables N and nnzratio (block.cpp:26-27) *)
  Definition labels : Type := option N * option R.
  (** sscanf(basename(argv[f]), "size%luratio%f%*s", &N, &nnzratio) (block.cpp:59); the number of
      conversions is not looked at *)
  Definition scan_label (name : bytes) (v : labels) : outcome labels :=
    let '(n, r) := v in
    if negb (has_prefix (str "size") name) then Ok v else
    '(a, s) ← scan_lu (drop 4 name);
    match a with
    | Got n =>
        if negb (has_prefix (str "ratio") s) then Ok (Some n, r) else
        match skip_space (drop 5 s) with
        | [] => Ok (Some n, r)
        | s => match scan_f s with (Some x, _) => Ok (Some n, Some x) | (None, _) => Ok (Some n, r) end
        end
    | _ => Ok v
    end.

  (** what is printed for a file besides the times (block.cpp:60): N, nnz, nnzratio *)
  Definition line : Type := N * nat * R.
  (** the local variables that live from file to file: the arrays of coo, if it has been filled, and
      the labels *)
  Definition block_st : Type := option (nat * nat * nat) * labels.
  (** one turn of the loop over the files (block.cpp:49-120); [inr]: return 1 *)
  Definition block_file F (name : bytes) (st : block_st) : led (block_st * line + Z) :=
    let '(_, v) := st in
    '(ret, A) ← pure (read_file RT k scan_g F name);
    a ← (match A with Some _ => p ← Ledger.one_new; mret (Some p) | None => mret None end : led (option nat));
    if negb (ret =? 0)%Z then mret (inr 1%Z) else
    A ← pure (use A);
    a ← pure (use a);
    B ← pure (coo_of_read A);
    v ← pure (scan_label (basename name) v);
    n ← pure (use v.1);
    r ← pure (use v.2);
    x ← Ledger.alloc Ledger.FMalloc;
    y ← Ledger.alloc Ledger.FMalloc;
    _ ← pure (Coo_to_Coo (fun i => i) B);
    c ← Ledger.coo_new;
    s ← Ledger.coo_new;
    '(_, E) ← pure (Coo_to_BlockCoo (c_elems B));
    _ ← Ledger.coo_release strict s;
    '(_, B1) ← pure (Coo_to_Csr (Coo (c_rows B) (c_cols B) E));
    d ← Ledger.csr_new;
    '(_, B2) ← pure (Coo_to_Csr B1);
    e ← Ledger.csr2_new;
    _ ← Ledger.csr2_release strict e;
    _ ← pure (Coo_to_BlockCsr (c_elems B2) (c_rows B2) (c_cols B2));
    g ← Ledger.csr_new;
    _ ← Ledger.csr_release strict g;
    _ ← pure (Coo_to_Dense (c_elems B2) (c_rows B2) (c_cols B2));
    h ← Ledger.one_new;
    _ ← Ledger.dealloc strict Ledger.FMalloc y;
    _ ← Ledger.dealloc strict Ledger.FMalloc x;
    _ ← Ledger.one_release strict a;
    mret (inl (Some c, v, (n, c_nnz B, r))).
  (** the loop (block.cpp:49-121); on every way out the destructor of coo runs (coo.1.h:35-40) *)
  Fixpoint block_files F (names : list bytes) (st : block_st) (out : list line) : led (Z * list line) :=
    match names with
    | [] => _ ← Ledger.coo_destroy strict st.1; mret (0%Z, out)
    | name :: names =>
        r ← block_file F name st;
        match r with
        | inr c => _ ← Ledger.coo_destroy strict st.1; mret (c, out)
        | inl (st, l) => block_files F names st (out ++ [l])
        end
    end.
  (** main (block.cpp:22-124): the exit code and the lines *)
  Definition block_main (args : list bytes) F : led (Z * list line) :=
    match args with
    | [] => _ ← Ledger.coo_destroy strict None; mret (1%Z, [])
    | _ => block_files F args (None, (None, None)) []
    end.
End BlockTest.
