(** Ledger.v: model of who allocates and who deallocates: the allocations of the matrix
    constructors and readers and the releases (release(...), destructors) of include/matrix.
    Only the allocation and deallocation statements are kept, in program order; what is in
    the arrays is modelled in the other files.  Allocations never fail. *)
From Verif Require Import Base.
From stdpp Require Import gmap.

(** how a piece of memory was obtained: malloc or calloc, new, new[] *)
Inductive family := FMalloc | FNew | FNewArray.
Global Instance family_eq_dec : EqDecision family. Proof. solve_decision. Defined.

(** the heap as the deallocators see it: live pieces (by address) with their origin, and a
    bound above all addresses used so far *)
Record ledger := Ledger { l_next : nat; l_live : gmap nat family }.
Definition led (A : Type) : Type := ledger -> outcome (A * ledger).
Global Instance led_ret : MRet led := fun A a m => Ok (a, m).
Global Instance led_bind : MBind led := fun A B f p m => '(a, m') ← p m; f a m'.

Definition alloc (f : family) : led nat := fun m => Ok (l_next m, Ledger (S (l_next m)) (<[l_next m := f]> (l_live m))).
(** free, delete, delete[]: the piece must be live and, if the platform is strict (the
    language standards; any memory checker), come from the matching allocator.  With [strict]
    false every deallocator releases every live piece, as glibc's do in practice. *)
Definition dealloc (strict : bool) (f : family) (p : nat) : led unit := fun m =>
  match l_live m !! p with
  | Some g => if strict && negb (bool_decide (f = g)) then Undef BadFree else Ok (tt, Ledger (l_next m) (delete p (l_live m)))
  | None => Undef BadFree
  end.

(** [n] calls of [p] in a row, results in order *)
Fixpoint led_times {A} (n : nat) (p : led A) : led (list A) :=
  match n with 0 => mret [] | S n => a ← p; l ← led_times n p; mret (a :: l) end.
(** [f] on each in a row *)
Fixpoint led_each {A} (f : A -> led unit) (l : list A) : led unit :=
  match l with [] => mret tt | a :: l => _ ← f a; led_each f l end.
Fixpoint led_map {A B} (f : A -> led B) (l : list A) : led (list B) :=
  match l with [] => mret [] | a :: l => b ← f a; r ← led_map f l; mret (b :: r) end.

Section Ledger.
  Context (strict : bool).

  (** ** formats of plain arrays *)
  (** Coo_to_Csr with allocate (include/matrix/csr.1.h:83-86), read_bin_CSR (io/input.h:373-375),
      BlockCsr (block_csr.h:47-49) *)
  Definition csr_new : led (nat * nat * nat) := v ← alloc FNewArray; c ← alloc FNewArray; r ← alloc FNewArray; mret (v, c, r).
  (** release(Csr) (csr.1.h:136-142), release(BlockCsr) (block_csr.h:77-83) *)
  Definition csr_release (A : nat * nat * nat) : led unit :=
    let '(v, c, r) := A in _ ← dealloc strict FNewArray v; _ ← dealloc strict FNewArray r; dealloc strict FNewArray c.
  (** Coo_to_Csr for Csr2 (csr.2.h:56-61) and release(Csr2) (csr.2.h:83-88) *)
  Definition csr2_new : led (nat * nat) := d ← alloc FNewArray; r ← alloc FNewArray; mret (d, r).
  Definition csr2_release (A : nat * nat) : led unit := let '(d, r) := A in _ ← dealloc strict FNewArray r; dealloc strict FNewArray d.
  (** Coo_to_Cswr (cswr.h:58-61) and release(Cswr) (cswr.h:114-121) *)
  Definition cswr_new : led (nat * nat * nat * nat) :=
    v ← alloc FNewArray; r ← alloc FNewArray; c ← alloc FNewArray; w ← alloc FNewArray; mret (v, r, c, w).
  Definition cswr_release (A : nat * nat * nat * nat) : led unit :=
    let '(v, r, c, w) := A in _ ← dealloc strict FNewArray v; _ ← dealloc strict FNewArray r; _ ← dealloc strict FNewArray c; dealloc strict FNewArray w.
  (** allocate/release of the coordinate formats: Coo2, Coo3 (coo.2.h:43-54, coo.3.h:43-54),
      BlockCoo2 (block_coo.2.h:61-71) and dense ones (dense.h:129-146): one array *)
  Definition one_new : led nat := alloc FNewArray.
  Definition one_release (A : nat) : led unit := dealloc strict FNewArray A.
  (** BlockCoo (block_coo.1.h:74-88), Coo (coo.1.h:66-80): three arrays; the pointers of a Coo
      that was never allocated are uninitialised *)
  Definition coo_new : led (nat * nat * nat) := i ← alloc FNewArray; j ← alloc FNewArray; v ← alloc FNewArray; mret (i, j, v).
  Definition coo_release (A : nat * nat * nat) : led unit :=
    let '(i, j, v) := A in _ ← dealloc strict FNewArray i; _ ← dealloc strict FNewArray j; dealloc strict FNewArray v.
  (** ~Coo (coo.1.h:35-40) *)
  Definition coo_destroy (A : option (nat * nat * nat)) : led unit :=
    match A with Some p => coo_release p | None => fun _ => Undef Uninit end.
  (** CompRowCsr (crcsr.h:40-43 and 103-110) *)
  Definition crcsr_new : led (nat * nat * nat * nat) :=
    z ← alloc FNewArray; r ← alloc FNewArray; c ← alloc FNewArray; v ← alloc FNewArray; mret (z, r, c, v).
  Definition crcsr_release (A : nat * nat * nat * nat) : led unit :=
    let '(z, r, c, v) := A in _ ← dealloc strict FNewArray z; _ ← dealloc strict FNewArray r; _ ← dealloc strict FNewArray c; dealloc strict FNewArray v.

  (** ** the partition (include/partition.h:66-101): an array with one vector per block row; each
      vector owns one piece from std::allocator, i.e. operator new *)
  Definition partition_new (blockrows : nat) : led (nat * list nat) :=
    p ← alloc FNewArray; v ← led_times blockrows (alloc FNew); mret (p, v).
  (** partition_destroy (partition.h:95-99): delete[] destroys the vectors first *)
  Definition partition_delete (P : nat * list nat) : led unit :=
    _ ← led_each (dealloc strict FNew) (snd P); dealloc strict FNewArray (fst P).

  (** ** Csbr *)
  Record csbr_mem := CsbrMem { sm_roff : nat; sm_coff : nat; sm_blocks : nat; sm_ind : nat; sm_ptr : nat; sm_val : nat; sm_colind : nat;
    sm_rowptrs : list nat; sm_part : option (nat * list nat) }.
  (** Coo_to_Csbr (csbr.h:230-234, 265, 303) for [n] non-empty blocks *)
  Definition csbr_new (roff coff blockrows n : nat) : led csbr_mem :=
    b ← alloc FMalloc; i ← alloc FMalloc; p ← alloc FMalloc; v ← alloc FMalloc; c ← alloc FMalloc;
    r ← led_times n (alloc FMalloc); q ← partition_new blockrows;
    mret (CsbrMem roff coff b i p v c r (Some q)).
  (** read_bin_blocked for Csbr (io/blocked.h:79-83, 128); it makes no partition *)
  Definition csbr_read (roff coff n : nat) : led csbr_mem :=
    b ← alloc FMalloc; i ← alloc FMalloc; p ← alloc FMalloc; v ← alloc FMalloc; c ← alloc FMalloc;
    r ← led_times n (alloc FMalloc); mret (CsbrMem roff coff b i p v c r None).
  (** the offsets in every release (csbr.h:373-379, csbr.2.h:227-233, bcsr.h:208-214) *)
  Definition offsets_free (roff coff : nat) : led unit :=
    if coff =? roff then dealloc strict FMalloc roff else _ ← dealloc strict FMalloc coff; dealloc strict FMalloc roff.
  (** release(Csbr) (csbr.h:366-386) *)
  Definition csbr_release (A : csbr_mem) : led unit :=
    _ ← led_each (dealloc strict FNewArray) (sm_rowptrs A);
    _ ← offsets_free (sm_roff A) (sm_coff A);
    _ ← dealloc strict FMalloc (sm_ind A); _ ← dealloc strict FMalloc (sm_blocks A); _ ← dealloc strict FMalloc (sm_ptr A);
    _ ← dealloc strict FMalloc (sm_colind A); dealloc strict FMalloc (sm_val A).
  (** offsets made by the caller, both the same array or two: from read_bin_array's malloc or
      a constant-size wrapper: Csbr's own uses malloc (csbr.h:315-316) *)
  Definition with_offsets {A} (f : family) (same : bool) (k : nat -> nat -> led A) : led A :=
    r ← alloc f; c ← (if same then mret r else alloc f); k r c.

  (** ** Csbr2 *)
  Record csbr2_mem := Csbr2Mem { s2m_roff : nat; s2m_coff : nat; s2m_ptr : nat; s2m_rowptr : nat; s2m_val : nat; s2m_colind : nat; s2m_rowptrs : list nat }.
  (** Coo_to_Csbr (csbr.2.h:113-116, 139), read_bin_blocked (io/blocked.h:182-185, 226) *)
  Definition csbr2_new (roff coff n : nat) : led csbr2_mem :=
    p ← alloc FMalloc; q ← alloc FMalloc; v ← alloc FMalloc; c ← alloc FMalloc; r ← led_times n (alloc FMalloc);
    mret (Csbr2Mem roff coff p q v c r).
  (** release(Csbr2) (csbr.2.h:221-238) *)
  Definition csbr2_release (A : csbr2_mem) : led unit :=
    _ ← led_each (dealloc strict FMalloc) (s2m_rowptrs A); _ ← offsets_free (s2m_roff A) (s2m_coff A);
    _ ← dealloc strict FMalloc (s2m_ptr A); _ ← dealloc strict FMalloc (s2m_rowptr A); _ ← dealloc strict FMalloc (s2m_colind A);
    dealloc strict FMalloc (s2m_val A).

  (** ** Csbr3 (csbr.3.h:81-86 and 161-170) *)
  Definition csbr3_new : led (list nat) := led_times 6 (alloc FNewArray).
  Definition csbr3_release (A : list nat) : led unit := led_each (dealloc strict FNewArray) A.

  (** ** Bcsr: the reader (io/blocked.h:292-294, 332); all blocks keep rows = 0 (305-307), so
      release (bcsr.h:201-218) frees no row_ptr *)
  Record bcsr_mem := BcsrMem { bm_roff : nat; bm_coff : nat; bm_blocks : nat; bm_colind : nat; bm_val : nat; bm_rowptrs : list (nat * nat) }.
  Definition bcsr_read (roff coff n : nat) : led bcsr_mem :=
    b ← alloc FMalloc; c ← alloc FMalloc; v ← alloc FMalloc; r ← led_times n (alloc FMalloc);
    mret (BcsrMem roff coff b c v ((fun p => (0, p)) <$> r)).
  Definition bcsr_release (A : bcsr_mem) : led unit :=
    _ ← led_each (fun blk : nat * nat => if 0 <? fst blk then dealloc strict FMalloc (snd blk) else mret tt) (bm_rowptrs A);
    _ ← offsets_free (bm_roff A) (bm_coff A);
    _ ← dealloc strict FMalloc (bm_blocks A); _ ← dealloc strict FMalloc (bm_colind A); dealloc strict FMalloc (bm_val A).

  (** ** Cgbr: blocks of three kinds *)
  Inductive shape := SCoo | SCsr | SDense.
  Inductive block_mem := BmCoo (p : nat * nat * nat) | BmCsr (p : nat * nat * nat) | BmDense (p : nat).
  (** Coo_to_MatrixBlock (cgbr.h:213-239) *)
  Definition block_new (s : shape) : led block_mem :=
    match s with SCoo => p ← coo_new; mret (BmCoo p) | SCsr => p ← csr_new; mret (BmCsr p) | SDense => p ← one_new; mret (BmDense p) end.
  (** release(MatrixBlock) (cgbr.h:374-391) *)
  Definition block_release (B : block_mem) : led unit :=
    match B with BmCoo p => coo_release p | BmCsr p => csr_release p | BmDense p => one_release p end.
  Record cgbr_mem := CgbrMem { gm_blocks : nat; gm_ind : nat; gm_ptr : nat; gm_each : list block_mem; gm_balanced : bool; gm_part : option (nat * list nat) }.
  (** Coo_to_Cgbr (cgbr.h:287-289, 325, 343-348): a partition only if not balanced *)
  Definition cgbr_new (shapes : list shape) (blockrows : nat) (balanced : bool) : led cgbr_mem :=
    b ← alloc FNewArray; i ← alloc FNewArray; p ← alloc FNewArray; l ← led_map block_new shapes;
    q ← (if balanced then mret None else q ← partition_new blockrows; mret (Some q));
    mret (CgbrMem b i p l balanced q).
  (** read_bin_blocked for Cgbr (io/blocked.h:383-385, 424-452, 470): a partition always, and
      the flag is never set: [garbage] is what it happens to hold.  A temporary array per block
      (424, 452) *)
  Definition cgbr_read (shapes : list shape) (blockrows : nat) (garbage : bool) : led cgbr_mem :=
    b ← alloc FNewArray; i ← alloc FNewArray; p ← alloc FNewArray;
    l ← led_map (fun s => t ← alloc FNewArray; B ← block_new s; _ ← dealloc strict FNewArray t; mret B) shapes;
    q ← partition_new blockrows; mret (CgbrMem b i p l garbage (Some q)).
  (** release(Cgbr) (cgbr.h:396-410): delete[] of the partition pointer, uninitialised if no
      partition was made *)
  Definition cgbr_release (A : cgbr_mem) : led unit :=
    _ ← (if gm_balanced A then mret tt else match gm_part A with Some q => partition_delete q | None => fun _ => Undef Uninit end);
    _ ← led_each block_release (gm_each A);
    _ ← dealloc strict FNewArray (gm_blocks A); _ ← dealloc strict FNewArray (gm_ptr A); dealloc strict FNewArray (gm_ind A).

  (** ** Cgbr2: every block is an object from new; ~Coo and ~BlockCsrSerial delete their arrays
      (coo.1.h:35-40, blocks.h:46-51), DenseSerial has no destructor (dense.h:14-47) *)
  Definition object_new (s : shape) : led (nat * block_mem) := o ← alloc FNew; B ← block_new s; mret (o, B).
  Definition object_delete (O : nat * block_mem) : led unit :=
    _ ← match snd O with BmCoo p => coo_release p | BmCsr p => csr_release p | BmDense _ => mret tt end;
    dealloc strict FNew (fst O).
  Record cgbr2_mem := Cgbr2Mem { g2m_blocks : nat; g2m_ind : nat; g2m_ptr : nat; g2m_each : list (nat * block_mem); g2m_part : nat * list nat }.
  (** Cgbr2::create (cgbr.2.h:115-117, 158, 175) *)
  Definition cgbr2_new (shapes : list shape) (blockrows : nat) : led cgbr2_mem :=
    b ← alloc FNewArray; i ← alloc FNewArray; p ← alloc FNewArray; l ← led_map object_new shapes; q ← partition_new blockrows;
    mret (Cgbr2Mem b i p l q).
  (** release(Cgbr2) (cgbr.2.h:230-243) *)
  Definition cgbr2_release (A : cgbr2_mem) : led unit :=
    _ ← partition_delete (g2m_part A); _ ← led_each object_delete (g2m_each A);
    _ ← dealloc strict FNewArray (g2m_blocks A); _ ← dealloc strict FNewArray (g2m_ptr A); dealloc strict FNewArray (g2m_ind A).

  (** ** scenarios *)
  (** a matrix with blocks of constant size: Coo_to_Blocked (generic/gsb.h:14-42) makes the
      offsets with new[] and hands them on; nobody else knows them *)
  Definition constant_size {A} (k : nat -> nat -> led A) : led A := with_offsets FNewArray false k.
End Ledger.
