(** Sort.v: the parallel stable merge sort of dep/pss, as parallel programs over
    the shared heap (Par.v).  Iterators are (buffer, offset) pairs.

    Simplifications, everywhere in this file: the element types sorted in /repo
    (Triplet, Element, NonZero: include/typedefs.h:6-28) are trivially copyable
    and destructible, so std::move is a copy and serial_destroy
    (dep/pss/pss_common.h:40-47) does nothing. *)
From Verif Require Export Par ParLib SortSpec.

Section Sort.
  Context {V : Type} (c : V -> V -> bool).
  (** MERGE_CUT_OFF (parallel_stable_sort.h:53, 2000) and SORT_CUT_OFF
      (parallel_stable_sort.h:83, 500) are parameters. *)
  Context (MERGE_CUT_OFF SORT_CUT_OFF : nat).

  (** libstdc++ binary search: [len] candidates from [first]; [right m] tells
      that the answer lies strictly right of a cell holding [m].
      (Standard library code called at parallel_stable_sort.h:59,62 and
      include/utils.h:116, not part of /repo.) *)
  Fixpoint bound_loop (fuel : nat) (right : V -> bool) (b : buf) (first len : nat) : prog V nat :=
    match fuel with
    | O => Fail FDiverge
    | S f =>
        if decide (0 < len) then
          let half := len / 2 in
          let mid := first + half in
          m ← read (b, mid);
          if right m then bound_loop f right b (S mid) (len - half - 1)
          else bound_loop f right b first half
        else Ret first
    end.
  (** std::upper_bound(first, last, v, comp): first cell with comp(v, cell) *)
  Definition upper_bound (b : buf) (s e : nat) (v : V) : prog V nat :=
    bound_loop (S (e - s)) (fun m => negb (c v m)) b s (e - s).
  (** std::lower_bound(first, last, v, comp): first cell with not comp(cell, v) *)
  Definition lower_bound (b : buf) (s e : nat) (v : V) : prog V nat :=
    bound_loop (S (e - s)) (fun m => c m v) b s (e - s).

  (** std::move(ys, ye, zs) (pss_common.h:69): cell by cell, left to right *)
  Definition copy (b : buf) (s e : nat) (bz : buf) (z : nat) : prog V unit :=
    pfor (e - s) 0 (fun i => v ← read (b, s + i); write (bz, z + i) v).

  (** serial_move_merge, the for(;;) loop (pss_common.h:54-64) and what
      follows it (65-69); entered with both ranges non-empty *)
  Fixpoint smm_loop (fuel : nat) (bx : buf) (xs xe : nat) (by_ : buf) (ys ye : nat)
      (bz : buf) (zs : nat) : prog V unit :=
    match fuel with
    | O => Fail FDiverge
    | S f =>
        vy ← read (by_, ys);
        vx ← read (bx, xs);
        if c vy vx then
          write (bz, zs) vy ≫= fun _ =>
          if S ys =? ye then copy bx xs xe bz (S zs)
          else smm_loop f bx xs xe by_ (S ys) ye bz (S zs)
        else
          write (bz, zs) vx ≫= fun _ =>
          if S xs =? xe then copy by_ ys ye bz (S zs)
          else smm_loop f bx (S xs) xe by_ ys ye bz (S zs)
    end.
  (** serial_move_merge (pss_common.h:50-70) *)
  Definition serial_move_merge (bx : buf) (xs xe : nat) (by_ : buf) (ys ye : nat)
      (bz : buf) (zs : nat) : prog V unit :=
    if xs =? xe then copy by_ ys ye bz zs
    else if ys =? ye then copy bx xs xe bz zs
    else smm_loop (S ((xe - xs) + (ye - ys))) bx xs xe by_ ys ye bz zs.

  (** parallel_move_merge (parallel_stable_sort.h:43-76): each turn of the while
      loop spawns a task for the left part and goes on with the right part; the
      taskwait at the end joins all of them.  [destroy] has no effect (above). *)
  Fixpoint parallel_move_merge (fuel : nat) (bx : buf) (xs xe : nat) (by_ : buf) (ys ye : nat)
      (bz : buf) (zs : nat) : prog V unit :=
    match fuel with
    | O => Fail FDiverge
    | S f =>
        if decide (MERGE_CUT_OFF < (xe - xs) + (ye - ys)) then
          '(xm, ym) ←
            (if (xe - xs) <? (ye - ys) then
               let ym := ys + (ye - ys) / 2 in
               v ← read (by_, ym);
               xm ← upper_bound bx xs xe v;
               Ret (xm, ym)
             else
               let xm := xs + (xe - xs) / 2 in
               v ← read (bx, xm);
               ym ← lower_bound by_ ys ye v;
               Ret (xm, ym));
          Fork (parallel_move_merge f bx xs xm by_ ys ym bz zs)
               (parallel_move_merge f bx xm xe by_ ym ye bz (zs + ((xm - xs) + (ym - ys))))
               (Ret tt)
        else serial_move_merge bx xs xe by_ ys ye bz zs
    end.
  Definition pmm (bx : buf) (xs xe : nat) (by_ : buf) (ys ye : nat) (bz : buf) (zs : nat) : prog V unit :=
    parallel_move_merge (S ((xe - xs) + (ye - ys))) bx xs xe by_ ys ye bz zs.

  (** std::stable_sort(xs, xe, comp): standard library code, modelled by its
      specification: reads the range, writes back its stable sort. *)
  Fixpoint read_list (b : buf) (s n : nat) : prog V (list V) :=
    match n with
    | O => Ret []
    | S n' => v ← read (b, s); l ← read_list b (S s) n'; Ret (v :: l)
    end.
  Fixpoint write_list (b : buf) (s : nat) (l : list V) : prog V unit :=
    match l with
    | [] => Ret tt
    | v :: l' => write (b, s) v ≫= fun _ => write_list b (S s) l'
    end.
  Definition std_stable_sort (b : buf) (s e : nat) : prog V unit :=
    l ← read_list b s (e - s); write_list b s (isort c l).

  (** stable_sort_base_case (pss_common.h:72-87).  For inplace = 1 the loop only
      default-initialises trivially constructible objects: no memory access. *)
  Definition stable_sort_base_case (bx : buf) (xs xe : nat) (bz : buf) (zs : nat) (inplace : nat) : prog V unit :=
    std_stable_sort bx xs xe ≫= fun _ =>
    if inplace =? 0 then copy bx xs xe bz zs else Ret tt.

  (** C's [!inplace] *)
  Definition lnot (inplace : nat) : nat := if inplace =? 0 then 1 else 0.

  (** parallel_stable_sort_aux (parallel_stable_sort.h:81-99) *)
  Fixpoint parallel_stable_sort_aux (fuel : nat) (bx : buf) (xs xe : nat) (bz : buf) (zs : nat)
      (inplace : nat) : prog V unit :=
    match fuel with
    | O => Fail FDiverge
    | S f =>
        if decide (xe - xs <= SORT_CUT_OFF) then stable_sort_base_case bx xs xe bz zs inplace
        else
          let xm := xs + (xe - xs) / 2 in
          let zm := zs + (xm - xs) in
          let ze := zs + (xe - xs) in
          Fork (parallel_stable_sort_aux f bx xs xm bz zs (lnot inplace))
               (parallel_stable_sort_aux f bx xm xe bz zm (lnot inplace))
               (if inplace =? 0 then pmm bx xs xm bx xm xe bz zs
                else pmm bz zs zm bz zm ze bx xs)
    end.

  (** parallel_stable_sort (parallel_stable_sort.h:103-116) on the [n] elements
      at the start of buffer [b]; [alloc_ok] says whether the temporary buffer
      (named [z]) could be allocated.  Both branches on omp_get_num_threads run
      the same call. *)
  Definition parallel_stable_sort (alloc_ok : bool) (b z : buf) (n : nat) : prog V unit :=
    if alloc_ok then
      alloc z n None ≫= fun _ =>
      parallel_stable_sort_aux (S n) b 0 n z 0 2 ≫= fun _ =>
      free z n
    else std_stable_sort b 0 n.
End Sort.

(** The sort as the conversion routines call it: a sequential step on an array
    held in a list.  [array] lives in buffer [[false]], the temporary in [[true]];
    the real cut-offs are used.  (Any schedule gives this result:
    C10 in Properties_Sort.v.) *)
Definition MERGE_CUT_OFF : nat := 2000.
Definition SORT_CUT_OFF : nat := 500.
(** the heap in which buffer [b] holds the array [l] and nothing else is live *)
Definition heap_of {V} (b : buf) (l : list V) : heap V := hset b 0 l ∅.
Fixpoint read_back {V} (h : heap V) (b : buf) (i n : nat) : outcome (list V) :=
  match n with
  | O => Ok []
  | S n' => match h !! (b, i) with
            | None => Undef OutOfBounds
            | Some None => Undef Uninit
            | Some (Some v) => l ← read_back h b (S i) n'; Ok (v :: l)
            end
  end.
Definition psort {V} (alloc_ok : bool) (c : V -> V -> bool) (l : list V) : outcome (list V) :=
  '(_, h) ← run (parallel_stable_sort c MERGE_CUT_OFF SORT_CUT_OFF alloc_ok [false] [true] (length l))
                (heap_of [false] l);
  read_back h [false] 0 (length l).
