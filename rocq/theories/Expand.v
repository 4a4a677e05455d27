(** Expand.v: expansion of all blocks to one power-of-two size (include/expand.h). *)
From Verif Require Export Utils Permute.

Section Expand.
  Context `{Widths}.

  (** expand_block_size (include/expand.h:16-26); next_power_of_two works on uint64_t and
      its result is cast to IT *)
  Definition expand_block_size (block_size : arr nat) (size : nat) : outcome nat :=
    max_block ← for_range 0 size
      (fun i max_block =>
         s ← aget block_size i;
         Ok (if max_block <? s then s else max_block)) 0;
    Ok (wrap (N.to_nat (next_power_of_two (N.of_nat max_block)))).

  (** expand_index (include/expand.h:32-42) *)
  Definition expand_index (offset : arr nat) (size block_size index : nat) : outcome nat :=
    block_index ← index_to_blockindex offset size index;
    let new_index := index in
    o ← aget offset block_index;
    let new_index := wsub new_index o in
    let new_index := wadd new_index (wmul block_index block_size) in
    Ok new_index.

  (** expand_indeces on an index array (include/expand.h:44-61): the indices are the
      buffer b; block_offset is written before the parallel loop and only read in it. *)
  Definition expand_indeces (b : buf) (size : nat) (block_size : arr nat) (blocks : nat) : prog nat nat :=
    new_block_size ← lift (expand_block_size block_size blocks);
    block_offset ← lift (size_to_offset (new_arr (wadd blocks 1)) block_size blocks);
    parfor size 0 (fun i =>
      v ← read (b, i);
      w ← lift (expand_index block_offset blocks new_block_size v);
      write (b, i) w) ≫= fun _ =>
    Ret new_block_size.

  (** expand_indeces on elements with block ids (include/expand.h:63-80), one element
      per cell as in Permute.v *)
  Definition expand_elements {T} (b : buf) (size : nat) (block_sizes block_offsets : arr nat) (blocks : nat) : prog (elem T) nat :=
    new_block_size ← lift (expand_block_size block_sizes blocks);
    parfor size 0 (fun i =>
      e ← read (b, i);
      br ← lift (div_ (blk e) blocks);
      bc ← lift (mod_ (blk e) blocks);
      obr ← lift (aget block_offsets br);
      lift (assert_ (obr <=? wmul br new_block_size)) ≫= fun _ =>
      obc ← lift (aget block_offsets bc);
      lift (assert_ (obc <=? wmul bc new_block_size)) ≫= fun _ =>
      write (b, i) (set_row (wadd (wsub (wmul br new_block_size) obr) (row e)) e) ≫= fun _ =>
      e' ← read (b, i);
      write (b, i) (set_col (wadd (wsub (wmul bc new_block_size) obc) (col e')) e')) ≫= fun _ =>
    Ret new_block_size.
End Expand.
