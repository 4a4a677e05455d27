(** Choice.v: the floating-point decisions of the blocked formats: which format a block gets
    (include/matrix/cgbr.h:213-239, include/matrix/blocks.h:90-118) and whether a Cgbr matrix
    counts as balanced (include/matrix/cgbr.h:153-177).

    A finite float is the rational number it denotes; [fl] rounds to the nearest float of 24
    bits, ties to even (IEEE binary32, what the built code uses: no -ffast-math, no fused
    operations).  All quantities here are 0 or at least 2^-64 and at most 2^100, so neither
    overflow nor underflow occurs and the exponent range is not modelled. *)
From Verif Require Export Cgbr.
From Coq Require Import QArith Qpower Qround.
Local Open Scope nat_scope.

(** ** rounding *)
(** the exponent e with 2^e <= q < 2^(e+1) *)
Definition exponent (q : Q) : Z :=
  let k := (Z.log2 (Qnum q) - Z.log2 (Zpos (Qden q)))%Z in
  if Qle_bool (Qpower 2 k) q then k else (k - 1)%Z.
(** the nearest integer, ties to even *)
Definition nearest (q : Q) : Z :=
  let f := Qfloor q in
  match Qcompare (q - inject_Z f) (1 # 2) with
  | Lt => f
  | Gt => f + 1
  | Eq => if Z.even f then f else f + 1
  end%Z.
Definition fl (q : Q) : Q :=
  if Qle_bool q 0 then 0%Q else
  let ulp := Qpower 2 (exponent q - 23) in
  (inject_Z (nearest (q / ulp)) * ulp)%Q.
Definition qn (n : nat) : Q := inject_Z (Z.of_nat n).
Definition Qltb (a b : Q) : bool := negb (Qle_bool b a).

Section Choice.
  (** sizeof(T), sizeof(IT), sizeof(SIT) *)
  Context (t i s : nat).
  Context `{Widths}.
  (** [float(nnz) * (2 * sizeof(SIT) + sizeof(T))] (cgbr.h:221, blocks.h:98) *)
  Definition size_coo (nnz : nat) : Q := fl (fl (qn nnz) * qn (2 * s + t)).
  (** [float(rows) * sizeof(IT) + nnz * (sizeof(SIT) + sizeof(T))] (cgbr.h:222, blocks.h:99);
      the second product is in size_t and does not overflow there *)
  Definition size_csr (rows nnz : nat) : Q := fl (fl (fl (qn rows) * qn i) + fl (qn (nnz * (s + t)))).
  (** [float(rows) * columns * sizeof(T)] (blocks.h:100) *)
  Definition size_dense (rows cols : nat) : Q := fl (fl (fl (qn rows) * fl (qn cols)) * qn t).
  (** [nnz / (float(rows) * float(columns))] (cgbr.h:223); [None] stands for infinity or NaN,
      which are not below anything the code compares them with *)
  Definition ratio (num den : Q) : option Q := if Qeq_bool den 0 then None else Some (fl (num / den)).
  Definition is_less (a : option Q) (b : Q) : bool := match a with Some a => Qltb a b | None => false end.
  (** Coo_to_MatrixBlock (include/matrix/cgbr.h:213-239) *)
  Definition float_choose (rows cols nnz : nat) : kind :=
    if Qltb (size_coo nnz) (fl ((3 # 2) * size_csr rows nnz)) then KCoo
    else if is_less (ratio (fl (qn nnz)) (fl (fl (qn rows) * fl (qn cols)))) (fl (3 # 10)) then KCsr
    else KDense.
  (** BlockFactoryDefault::create (include/matrix/blocks.h:90-118); rows * columns is computed
      in IT (blocks.h:101); 1.0f * csr is csr *)
  Definition float_choose2 (rows cols nnz : nat) : kind2 :=
    if Qltb (size_coo nnz) (size_csr rows nnz) then K2Coo
    else if Qltb (size_csr rows nnz) (size_dense rows cols) then
      if is_less (ratio (fl (qn nnz)) (fl (qn (wmul rows cols)))) (fl (1 # 20)) then K2CsrSerial else K2CsrParallel
    else K2Dense.
End Choice.

(** the comparison of is_balanced (include/matrix/cgbr.h:153-177) on the numbers of non-zeros
    of the blocks of every block row; without block rows there is no comparison *)
Definition float_balanced (nnz blockrows : nat) (counts : list (list nat)) : bool :=
  let mean_nnz := ratio (fl (qn nnz)) (fl (qn blockrows)) in
  forallb (fun row =>
    let br_nnz := fold_left (fun a n => fl (a + fl (qn n))) row 0%Q in
    match mean_nnz with Some m => negb (Qltb (fl (2 * m)) br_nnz) | None => true end) counts.
