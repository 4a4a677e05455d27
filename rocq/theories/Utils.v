(** Utils.v: model of include/utils.h (block indices, sorts, block ids, counters)
    and of the constant-size blocking of include/generic/gsb.h. *)
From Verif Require Export Base Spec Sort Words.

(** A coordinate matrix: Coo2 / Coo3 (include/matrix/coo.2.h:12-38, coo.3.h:11-38).
    [nnz] is the length of the element array, all of whose cells are written
    (every producer in /repo fills it). *)
Record coo (T : Type) := Coo { c_rows : nat; c_cols : nat; c_elems : list (elem T) }.
Arguments Coo {T}. Arguments c_rows {T}. Arguments c_cols {T}. Arguments c_elems {T}.
Definition c_nnz {T} (B : coo T) : nat := length (c_elems B).

Section Utils.
  Context {T : Type} `{Widths}.
  Implicit Types E : list (elem T).

  (** std::upper_bound(offset, offset + size, index) on an array of indices:
      libstdc++'s binary search (standard library, not part of /repo) *)
  Fixpoint ub_loop (fuel : nat) (offset : arr nat) (index first len : nat) : outcome nat :=
    match fuel with
    | O => Diverge
    | S f =>
        if decide (0 < len) then
          let half := len / 2 in
          let mid := first + half in
          m ← aget offset mid;
          if index <? m then ub_loop f offset index first half
          else ub_loop f offset index (S mid) (len - half - 1)
        else Ok first
    end.
  (** index_to_blockindex (include/utils.h:113-118); ub - offset - 1 is a pointer
      difference, -1 converts to the largest index *)
  Definition index_to_blockindex (offset : arr nat) (size index : nat) : outcome nat :=
    ub ← ub_loop (S size) offset index 0 size;
    Ok (wrap (ub + (itW - 1))).

  (** size_to_offset (include/utils.h:124-129): std::partial_sum writes the running
      sum (in type IT) of sizes[0..size) to offsets[1..size] *)
  Definition size_to_offset (offsets : arr nat) (sizes : arr nat) (size : nat) : outcome (arr nat) :=
    offsets ← aset offsets 0 0;
    '(offsets, _) ← for_range 0 size
      (fun i '(offsets, acc) =>
         s ← aget sizes i;
         let acc := if i =? 0 then s else wadd acc s in
         offsets ← aset offsets (1 + i) acc;
         Ok (offsets, acc)) (offsets, 0);
    Ok offsets.

  (** sort_triplets (include/utils.h:134-158) *)
  Definition compare_row (first last : elem T) : bool :=
    (row first <? row last) || ((row first =? row last) && (col first <? col last)).
  Definition compare_col (first last : elem T) : bool :=
    (col first <? col last) || ((col first =? col last) && (row first <? row last)).
  Definition sort_triplets (row_major : bool) E : outcome (list (elem T)) :=
    psort true (if row_major then compare_row else compare_col) E.

  (** sort_triplets_morton (include/utils.h:199-212) *)
  Definition compare_morton (first second : elem T) : bool :=
    (bit_interleave (N.of_nat (row first)) (N.of_nat (col first)) <?
     bit_interleave (N.of_nat (row second)) (N.of_nat (col second)))%N.
  Definition sort_triplets_morton E : outcome (list (elem T)) := psort true compare_morton E.

  (** sort_elements_blocks (include/utils.h:269-280) *)
  Definition compare_blocks (first last : elem T) : bool :=
    (blk first <? blk last) ||
    ((blk first =? blk last) && (row first <? row last)) ||
    ((blk first =? blk last) && (row first =? row last) && (col first <? col last)).
  Definition sort_elements_blocks E : outcome (list (elem T)) := psort true compare_blocks E.

  (** sort_triplets_widerows (include/utils.h:286-301); a division by zero in the
      comparison happens as soon as it is called *)
  Definition compare_widerows (width : nat) (first last : elem T) : bool :=
    let wr1 := row first / width in
    let wr2 := row last / width in
    (wr1 <? wr2) || ((wr1 =? wr2) && (col first <? col last)) ||
    ((wr1 =? wr2) && (col first =? col last) && (row first <? row last)).
  Definition sort_triplets_widerows E (width : nat) : outcome (list (elem T)) :=
    if decide (width = 0 /\ 2 <= length E) then Undef DivByZero
    else psort true (compare_widerows width) E.

  (** sort_triplets_blocks (include/utils.h:220-262).  std::sort, line 257, is
      modelled by [isort], a stable sort: any unstable result is also possible in
      C++, but no theorem goes past the scan of line 248. *)
  Definition stb_block_compare (bcol_offset : arr nat) (blockcols : nat) (first last : elem T) : bool :=
    match index_to_blockindex bcol_offset blockcols (col first), index_to_blockindex bcol_offset blockcols (col last) with
    | Ok f, Ok l => f <? l
    | _, _ => false
    end.
  Definition sort_triplets_blocks E (brow_offset : arr nat) (blockrows : nat)
      (bcol_offset : arr nat) (blockcols : nat) : outcome (list (elem T)) :=
    E ← psort true (fun first last : elem T => row first <? row last) E;
    brow_ptr ← aset (new_arr (blockrows + 1)) 0 0;
    '(brow_ptr, _) ← for_range 0 blockrows
      (fun br '(brow_ptr, i) =>
         i ← while_ (S (S (length E)))
               (fun i => e ← lget E i; o ← aget brow_offset (br + 1); Ok (row e <? o))
               (fun i => Ok (i + 1)) i;
         brow_ptr ← aset brow_ptr (br + 1) i;
         Ok (brow_ptr, i)) (brow_ptr, 0);
    brow_ptr ← aset brow_ptr blockrows (length E);
    for_range 0 blockrows
      (fun b E =>
         start ← aget brow_ptr b;
         end_ ← aget brow_ptr (b + 1);
         Ok (take start E ++ isort (stb_block_compare bcol_offset blockcols) (take (end_ - start) (drop start E)) ++ drop end_ E)) E.

  Definition set_blk (b : nat) (e : elem T) : elem T := Elem (row e) (col e) (val e) b.
  (** calculate_block_id with offset arrays (include/utils.h:306-316) *)
  Definition calculate_block_id E (blockrow_offset : arr nat) (blockrows : nat)
      (blockcol_offset : arr nat) (blockcols : nat) : outcome (list (elem T)) :=
    for_range 0 (length E)
      (fun i E =>
         e ← lget E i;
         br ← index_to_blockindex blockrow_offset blockrows (row e);
         bc ← index_to_blockindex blockcol_offset blockcols (col e);
         lset E i (set_blk (wadd (wmul br blockcols) bc) e)) E.
  (** calculate_block_id with constant sizes (include/utils.h:318-328) *)
  Definition calculate_block_id_const E (blockrow_size blockcol_size blockcols : nat) : outcome (list (elem T)) :=
    for_range 0 (length E)
      (fun i E =>
         e ← lget E i;
         br ← div_ (row e) blockrow_size;
         bc ← div_ (col e) blockcol_size;
         lset E i (set_blk (wadd (wmul br blockcols) bc) e)) E.

  (** count_blocks (include/utils.h:334-350) *)
  Definition count_blocks E : outcome nat :=
    e0 ← lget E 0;
    '(count, _) ← for_range 0 (length E)
      (fun i '(count, current) =>
         e ← lget E i;
         Ok (if current <? blk e then (wadd count 1, blk e) else (count, current))) (1, blk e0);
    Ok count.
  (** count_nnz_rows (include/utils.h:357-372) *)
  Definition count_nnz_rows E : outcome nat :=
    e0 ← lget E 0;
    '(count, _) ← for_range 0 (length E)
      (fun i '(count, cur_row) =>
         e ← lget E i;
         Ok (if negb (row e =? cur_row) then (wadd count 1, row e) else (count, cur_row))) (1, row e0);
    Ok count.

  (** the offset array of the constant-size Coo_to_Blocked for one dimension
      (include/generic/gsb.h:18-39, same code in include/matrix/csbr.h:310-332):
      returns the number of blocks and the offsets *)
  Definition const_offsets (dim size : nat) : outcome (nat * arr nat) :=
    nb ← div_ dim size;
    let nb := if nb =? 0 then 1 else nb in
    offset ← aset (new_arr (wadd nb 1)) 0 0;
    offset ← for_range 0 (nb - 1)
      (fun i offset => o ← aget offset i; aset offset (i + 1) (wadd o size)) offset;
    offset ← aset offset nb dim;
    Ok (nb, offset).
End Utils.
