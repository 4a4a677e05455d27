(** BlockCoo2.v: the block of triplets with short indices (include/matrix/block_coo.2.h) and
    the Morton code in a short index type (include/utils.h:175-212). *)
From Verif Require Export Simple.

(** BlockCoo2 (include/matrix/block_coo.2.h:11-27); the block id of the triplets is 0 *)
Record bcoo2 (T : Type) := BCoo2 { t_nnz : nat; t_triplets : list (elem T) }.
Arguments BCoo2 {T}. Arguments t_nnz {T}. Arguments t_triplets {T}.

Section BlockCoo2.
  Context {T : Type} `{Scalar T} `{Widths}.
  Implicit Types (E : list (elem T)) (b : buf).

  (** bit_interleave (include/utils.h:175-194) on SIT: the code is computed on uint32_t and
      cast back to SIT (line 193) *)
  Definition short_interleave (r c : nat) : N := (bit_interleave (N.of_nat r) (N.of_nat c) mod N.of_nat sitW)%N.
  (** sort_triplets_morton (include/utils.h:199-212) on triplets with short indices *)
  Definition compare_morton_short (first second : elem T) : bool :=
    (short_interleave (row first) (col first) <? short_interleave (row second) (col second))%N.
  Definition sort_triplets_morton_short E : outcome (list (elem T)) := psort true compare_morton_short E.

  (** cells of an array all of which have been written *)
  Fixpoint all_written {A} (a : arr A) : outcome (list A) :=
    match a with
    | [] => Ok []
    | None :: _ => Undef Uninit
    | Some v :: a' => l ← all_written a'; Ok (v :: l)
    end.
  (** Coo_to_Coo for BlockCoo2 (include/matrix/block_coo.2.h:33-54).  The three assignments
      to the fields of a triplet (lines 46-48) are one step *)
  Definition Coo_to_BlockCoo2 E : outcome (bcoo2 T) :=
    let nnz := length E in
    _ ← (if sitW <? itW then
           if (2147483648 <=? N.of_nat sitW)%N then Undef BadShift
           else for_range 0 nnz (fun i _ => e ← lget E i; assert_ ((row e <? sitW) && (col e <? sitW))) tt
         else Ok tt);
    triplets ← for_range 0 nnz
      (fun i a => e ← lget E i; aset a i (Elem (swrap (row e)) (swrap (col e)) (val e) 0)) (new_arr nnz);
    L ← all_written triplets;
    L ← sort_triplets_morton_short L;
    Ok (BCoo2 nnz L).
  (** spmv (include/matrix/block_coo.2.h:23-26) *)
  Definition bcoo2_spmv (A : bcoo2 T) (x : list T) (xo : nat) b (o : nat) : prog T unit :=
    spmv_coo_aos (full (t_triplets A)) (t_nnz A) x xo b o.
End BlockCoo2.
