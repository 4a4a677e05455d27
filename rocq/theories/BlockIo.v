(** BlockIo.v: blocked .block files (include/io/blocked.h, include/io/output.h:180-209).

    As in Io.v a file is its list of bytes.  [umax] is UINT_MAX, which the readers use as
    "no block yet" whatever the index type is.  Not modelled: malloc returning NULL. *)
From Verif Require Export Io Csbr Cgbr Bcsr.

(** a counting loop whose body may leave the function with [return]: [inr] *)
Fixpoint for_ret_n {S R} (n i : nat) (body : nat -> S -> outcome (S + R)) (st : S) : outcome (S + R) :=
  match n with
  | O => Ok (inl st)
  | Datatypes.S n' =>
      r ← body i st;
      match r with inl st' => for_ret_n n' (Datatypes.S i) body st' | inr c => Ok (inr c) end
  end.
Definition for_ret {S R} (hi : nat) (body : nat -> S -> outcome (S + R)) (st : S) : outcome (S + R) := for_ret_n hi 0 body st.

Section BlockIo.
  Context {T : Type} `{Scalar T} `{Widths} (RT : repr T) (k : nat) (umax : nat).
  Notation RI := (index_repr k).

  (** one record: block, row, column, value (include/io/output.h:199-204) *)
  Definition enc_record (e : elem T) : bytes := enc RI (blk e) ++ enc RI (row e) ++ enc RI (col e) ++ enc RT (val e).
  Definition record_size : nat := 3 * k + sz RT.
  (** write_bin_blocked (include/io/output.h:180-209) of a Coo3 with its block counts *)
  Definition write_bin_blocked (A : coo T) (blockrows blockcols nnzblocks : nat) : bytes :=
    enc RI (c_rows A) ++ enc RI (c_cols A) ++ enc RI (c_nnz A) ++ enc RI blockrows ++ enc RI blockcols ++ enc RI nnzblocks ++
    concat (enc_record <$> c_elems A).

  (** the steps with which src/tools/convert_blocked.cpp:73-93 (and prepare.cpp:126-170) makes
      a .block file of a matrix *)
  Definition make_block_file (B : coo T) (roff : arr nat) (blockrows : nat) (coff : arr nat) (blockcols : nat) : outcome bytes :=
    E ← calculate_block_id (c_elems B) roff blockrows coff blockcols;
    E ← sort_elements_blocks E;
    nnzblocks ← count_blocks E;
    Ok (write_bin_blocked (Coo (c_rows B) (c_cols B) E) blockrows blockcols nnzblocks).

  (** read_bin_blocked_common (include/io/blocked.h:26-58): rows, columns, nnz, nnzblocks and
      the rest of the file; exits when the file cannot be opened *)
  Definition read_bin_blocked_common (file : option bytes) (roff : arr nat) (blockrows : nat) (coff : arr nat) (blockcols : nat) :
      outcome (nat * nat * nat * nat * bytes) :=
    match file with
    | None => Abort
    | Some f =>
        let '(n1, rows, f) := fread1 RI None f in
        let '(n2, columns, f) := fread1 RI None f in
        let '(n3, nnz, f) := fread1 RI None f in
        let '(n4, brs, f) := fread1 RI None f in
        let '(n5, bcs, f) := fread1 RI None f in
        let '(n6, nnzblocks, f) := fread1 RI None f in
        _ ← assert_ (n1 + n2 + n3 + n4 + n5 + n6 =? 6);
        rows ← use rows; columns ← use columns; nnz ← use nnz;
        brs ← use brs; bcs ← use bcs; nnzblocks ← use nnzblocks;
        _ ← assert_ (brs =? blockrows);
        _ ← assert_ (bcs =? blockcols);
        r ← aget roff brs;
        _ ← assert_ (r =? rows);
        c ← aget coff bcs;
        _ ← assert_ (c =? columns);
        Ok (rows, columns, nnz, nnzblocks, f)
    end.

  (** the four reads of include/io/blocked.h:97-105: the element, or None when not all four
      succeed *)
  Definition fread_record (f : bytes) : option (elem T) * bytes :=
    let '(n1, b, f) := fread1 RI None f in
    let '(n2, r, f) := fread1 RI None f in
    let '(n3, c, f) := fread1 RI None f in
    let '(n4, v, f) := fread1 RT None f in
    if n1 + n2 + n3 + n4 =? 4 then
      match b, r, c, v with Some b, Some r, Some c, Some v => (Some (Elem r c v b), f) | _, _, _, _ => (None, f) end
    else (None, f).

  (** the data loop of the Csbr, Csbr2 and Bcsr readers (include/io/blocked.h:92-142, 194-240,
      308-346): block_index and prev_b start at UINT_MAX converted to IT; [new k i b]: what
      is done for a new block, [add k i e]: what is done for every record *)
  Definition read_records {S} (new : nat -> nat -> nat -> S -> outcome S) (add : nat -> nat -> elem T -> S -> outcome S)
      (nnz : nat) (f : bytes) (st : S) : outcome ((nat * nat * bytes * S) + Z) :=
    for_ret nnz (fun i '(block_index, prev_b, f, st) =>
      match fread_record f with
      | (None, _) => Ok (inr (-4)%Z)
      | (Some e, f) =>
          '(block_index, prev_b, st) ←
            (if blk e =? prev_b then Ok (block_index, prev_b, st)
             else _ ← assert_ ((prev_b <? blk e) || (prev_b =? umax));
                  let k := wadd block_index 1 in st ← new k i (blk e) st; Ok (k, blk e, st));
          st ← add block_index i e st;
          Ok (inl (block_index, prev_b, f, st))
      end) (wrap umax, wrap umax, f, st).

  (** br_offset, br_size, bc_offset; include/io/blocked.h:114-118 (same in 216-220, 325-329) *)
  Definition read_geometry (roff coff : arr nat) (blockcols id : nat) : outcome (nat * nat * (nat * nat * nat)) :=
    br ← div_ id blockcols;
    bc ← mod_ id blockcols;
    ro ← aget roff br;
    co ← aget coff bc;
    ro' ← aget roff (br + 1);
    Ok (br, bc, (ro, wsub ro' ro, co)).
  (** include/io/blocked.h:135-137 (same in 233-235, 339-341): the last column is not checked *)
  Definition check_read (g : nat * nat * nat) (e : elem T) : outcome unit :=
    let '(ro, rs, co) := g in
    _ ← assert_ (ro <=? row e);
    _ ← assert_ (row e <? wadd rs ro);
    assert_ (co <=? col e).

  (** ** Csbr (include/io/blocked.h:63-161) *)
  Definition rcsbr_st : Type := option (nat * nat * nat) * arr nat * arr nat * arr csbr_block * arr nat * arr T.
  (** include/io/blocked.h:114-132 *)
  Definition rcsbr_new (roff coff : arr nat) (blockcols kk i id : nat) (st : rcsbr_st) : outcome rcsbr_st :=
    let '(_, ptr, ind, blocks, ci, v) := st in
    '(br, bc, g) ← read_geometry roff coff blockcols id;
    let '(ro, rs, co) := g in
    ptr ← incr ptr (br + 1);
    ind ← aset ind kk bc;
    blocks ← aset blocks kk (CsbrBlock rs i (new_arr0 0 (wadd rs 1)));
    Ok (Some g, ptr, ind, blocks, ci, v).
  (** include/io/blocked.h:135-141 *)
  Definition rcsbr_add (kk i : nat) (e : elem T) (st : rcsbr_st) : outcome rcsbr_st :=
    let '(g, ptr, ind, blocks, ci, v) := st in
    g ← use g;
    _ ← check_read g e;
    let '(ro, rs, co) := g in
    B ← aget blocks kk;
    rp ← incr (cb_ptr B) (wadd (wsub (row e) ro) 1);
    blocks ← aset blocks kk (CsbrBlock (cb_rows B) (cb_pos B) rp);
    ci ← aset ci i (wsub (col e) co);
    v ← aset v i (val e);
    Ok (Some g, ptr, ind, blocks, ci, v).
  (** the return code and, with code 0, the matrix; its partition is not set *)
  Definition read_bin_blocked_csbr (file : option bytes) (roff : arr nat) (blockrows : nat) (coff : arr nat) (blockcols : nat) :
      outcome (Z * option (csbr T)) :=
    '(rows, columns, nnz, nnzblocks, f) ← read_bin_blocked_common file roff blockrows coff blockcols;
    r ← read_records (rcsbr_new roff coff blockcols) rcsbr_add nnz f
      (None, new_arr0 0 (wadd blockrows 1), new_arr nnzblocks, new_arr nnzblocks, new_arr nnz, new_arr nnz);
    match r with
    | inr c => Ok (c, None)
    | inl (_, _, _, (_, ptr, ind, blocks, ci, v)) =>
        blocks ← for_range 0 nnzblocks
          (fun bi blocks =>
             B ← aget blocks bi;
             rp ← prefix_sum (cb_ptr B) (cb_rows B);
             aset blocks bi (CsbrBlock (cb_rows B) (cb_pos B) rp)) blocks;
        ptr ← prefix_sum ptr blockrows;
        total ← aget ptr blockrows;
        _ ← assert_ (total =? nnzblocks);
        Ok (0%Z, Some (Csbr rows columns nnz blockrows blockcols nnzblocks roff coff blocks ptr ind ci v))
    end.

  (** ** Csbr2 (include/io/blocked.h:166-272) *)
  Definition rcsbr2_st : Type := option (nat * nat * nat) * arr nat * arr (arr nat) * arr nat * arr T.
  (** include/io/blocked.h:216-230 *)
  Definition rcsbr2_new (roff coff : arr nat) (blockcols kk i id : nat) (st : rcsbr2_st) : outcome rcsbr2_st :=
    let '(_, ptr, rps, ci, v) := st in
    '(br, bc, g) ← read_geometry roff coff blockcols id;
    let '(ro, rs, co) := g in
    ptr ← incr ptr (br + 1);
    rps ← aset rps kk (new_arr0 0 (wadd rs 1));
    Ok (Some g, ptr, rps, ci, v).
  (** include/io/blocked.h:233-239 *)
  Definition rcsbr2_add (kk i : nat) (e : elem T) (st : rcsbr2_st) : outcome rcsbr2_st :=
    let '(g, ptr, rps, ci, v) := st in
    g ← use g;
    _ ← check_read g e;
    let '(ro, rs, co) := g in
    rp ← aget rps kk;
    rp ← incr rp (wadd (wsub (row e) ro) 1);
    rps ← aset rps kk rp;
    ci ← aset ci i (col e);
    v ← aset v i (val e);
    Ok (Some g, ptr, rps, ci, v).
  Definition read_bin_blocked_csbr2 (file : option bytes) (roff : arr nat) (blockrows : nat) (coff : arr nat) (blockcols : nat) :
      outcome (Z * option (csbr2 T)) :=
    '(rows, columns, nnz, nnzblocks, f) ← read_bin_blocked_common file roff blockrows coff blockcols;
    r ← read_records (rcsbr2_new roff coff blockcols) rcsbr2_add nnz f
      (None, new_arr0 0 (wadd blockrows 1), new_arr nnzblocks, new_arr nnz, new_arr nnz);
    match r with
    | inr c => Ok (c, None)
    | inl (_, _, _, (_, ptr, rps, ci, v)) =>
        ptr ← prefix_sum ptr blockrows;
        total ← aget ptr blockrows;
        _ ← assert_ (total =? nnzblocks);
        '(rps, _) ← for_range 0 blockrows
          (fun br '(rps, nnz_count) =>
             ro' ← aget roff (br + 1);
             ro ← aget roff br;
             let block_size := wsub ro' ro in
             blockrow_start ← aget ptr br;
             blockrow_end ← aget ptr (br + 1);
             for_range blockrow_start blockrow_end
               (fun k '(rps, nnz_count) =>
                  rp ← aget rps k;
                  '(rp, n) ← csbr2_accumulate rp block_size nnz_count;
                  rps ← aset rps k rp;
                  Ok (rps, n)) (rps, nnz_count)) (rps, 0);
        Ok (0%Z, Some (Csbr2 rows columns nnz blockrows blockcols nnzblocks roff coff ptr rps ci v))
    end.

  (** ** Bcsr (include/io/blocked.h:277-360) *)
  Definition rbcsr_st : Type := option (nat * nat * nat) * list bblock * arr nat * arr T.
  (** include/io/blocked.h:325-336: of the block only row_ptr is set *)
  Definition rbcsr_new (roff coff : arr nat) (blockcols kk i id : nat) (st : rbcsr_st) : outcome rbcsr_st :=
    let '(_, blocks, ci, v) := st in
    '(br, bc, g) ← read_geometry roff coff blockcols id;
    let '(ro, rs, co) := g in
    B ← lget blocks id;
    blocks ← lset blocks id (BBlock (bb_rows B) (bb_pos B) (Some (new_arr0 0 (wadd rs 1))));
    Ok (Some g, blocks, ci, v).
  (** include/io/blocked.h:339-345 *)
  Definition rbcsr_add (kk i : nat) (e : elem T) (st : rbcsr_st) : outcome rbcsr_st :=
    let '(g, blocks, ci, v) := st in
    g ← use g;
    _ ← check_read g e;
    let '(ro, rs, co) := g in
    B ← lget blocks (blk e);
    rp ← use (bb_ptr B);
    rp ← incr rp (wadd (wsub (row e) ro) 1);
    blocks ← lset blocks (blk e) (BBlock (bb_rows B) (bb_pos B) (Some rp));
    ci ← aset ci i (wsub (col e) co);
    v ← aset v i (val e);
    Ok (Some g, blocks, ci, v).
  Definition read_bin_blocked_bcsr (file : option bytes) (roff : arr nat) (blockrows : nat) (coff : arr nat) (blockcols : nat) :
      outcome (Z * option (bcsr T)) :=
    '(rows, columns, nnz, nnzblocks, f) ← read_bin_blocked_common file roff blockrows coff blockcols;
    let nblocks := wmul blockrows blockcols in
    blocks ← for_range 0 nblocks
      (fun i blocks => B ← lget blocks i; lset blocks i (BBlock (Some 0) (bb_pos B) (bb_ptr B)))
      (replicate nblocks (BBlock None None None));
    r ← read_records (rbcsr_new roff coff blockcols) rbcsr_add nnz f (None, blocks, new_arr nnz, new_arr nnz);
    match r with
    | inr c => Ok (c, None)
    | inl (_, _, _, (_, blocks, ci, v)) =>
        blocks ← for_range 0 nnzblocks
          (fun bi blocks =>
             B ← lget blocks bi;
             rows ← use (bb_rows B);
             if rows =? 0 then Ok blocks
             else rp ← use (bb_ptr B);
                  rp ← prefix_sum rp rows;
                  lset blocks bi (BBlock (bb_rows B) (bb_pos B) (Some rp))) blocks;
        Ok (0%Z, Some (Bcsr rows columns nnz blockrows blockcols nnzblocks roff coff blocks ci v))
    end.

  (** ** Cgbr (include/io/blocked.h:365-473) *)
  (** fread(&buffer, sizeof(A), 1, f) at position p of the file: items read, buffer, position *)
  Definition fread_at {A} (R : repr A) (buffer : option A) (f : bytes) (p : nat) : nat * option A * nat :=
    let '(m, buffer, _) := fread1 R buffer (drop p f) in
    (m, buffer, if m =? 1 then p + sz R else Nat.max p (length f)).
  (** fseek(f, -n, SEEK_CUR): a seek to before the beginning fails and leaves the position *)
  Definition seek_back (p n : nat) : nat := if n <=? p then p - n else p.
  (** the four reads of a record: items read, its block and the position; row, column and
      value are read again later *)
  Definition skip_record (b : option nat) (f : bytes) (p : nat) : nat * option nat * nat :=
    let '(n1, b, p) := fread_at RI b f p in
    let '(n2, _, p) := fread_at RI None f p in
    let '(n3, _, p) := fread_at RI None f p in
    let '(n4, _, p) := fread_at RT None f p in
    (n1 + n2 + n3 + n4, b, p).
  (** reading one element of temp_array (include/io/blocked.h:431-443) *)
  Definition read_element (f : bytes) (id : nat) (g : geometry) (p : nat) : outcome (elem T * nat) :=
    let '(_, b, p) := fread_at RI None f p in
    let '(_, r, p) := fread_at RI None f p in
    let '(_, c, p) := fread_at RI None f p in
    let '(_, v, p) := fread_at RT None f p in
    b ← use b; r ← use r; c ← use c; v ← use v;
    _ ← assert_ (b =? id);
    _ ← check_inside g (Elem r c v b);
    Ok (Elem (wsub r (g_ro g)) (wsub c (g_co g)) v b, p).
  (** position, b, prev_b, block_index, block_start, blockrow_ptr, blockcol_ind, blocks,
      type_block_count, type_nnz_count *)
  Definition rcgbr_st : Type := nat * option nat * option nat * nat * nat * arr nat * arr nat * arr (gblock T) * arr nat * arr nat.
  (** one turn of the loop of include/io/blocked.h:403-458 *)
  Definition rcgbr_body (make : factory (T := T)) (f : bytes) (roff coff : arr nat) (blockcols i : nat) (st : rcgbr_st) : outcome rcgbr_st :=
    let '(p, b, prev_b, kk, start, ptr, ind, blocks, tb, tn) := st in
    let '(fr, b, p) := skip_record b f p in
    bv ← use b;
    pv ← use prev_b;
    if negb (bv =? pv) || (fr =? 0) then
      '(br, bc, g) ← block_geometry roff coff blockcols pv;
      ptr ← incr ptr (br + 1);
      ind ← aset ind kk bc;
      let block_nnz := wsub i start in
      let p := seek_back p (if fr =? 4 then wadd block_nnz 1 * record_size else block_nnz * record_size) in
      '(p, L) ← for_range 0 block_nnz
        (fun j '(p, L) => '(e, p) ← read_element f pv g p; Ok (p, L ++ [e])) (p, []);
      '(B, ty, _) ← make L (g_rs g) (g_cs g);
      blocks ← aset blocks kk B;
      tb ← incr tb ty;
      n ← aget tn ty;
      tn ← aset tn ty (wadd n block_nnz);
      Ok (p + record_size, b, b, wadd kk 1, i, ptr, ind, blocks, tb, tn)
    else Ok (p, b, prev_b, kk, start, ptr, ind, blocks, tb, tn).
  (** the matrix and the partition; [balanced] is not set; the six numbers of the header are
      behind the position at which the data is read *)
  Definition read_bin_blocked_cgbr (choose : nat -> nat -> nat -> kind) (workers : nat) (file : option bytes) (roff : arr nat) (blockrows : nat) (coff : arr nat) (blockcols : nat) :
      outcome (Z * cgbr T * list (list nat)) :=
    '(rows, columns, nnz, nnzblocks, _) ← read_bin_blocked_common file roff blockrows coff blockcols;
    let f := default [] file in
    let '(_, prev_b, p) := skip_record None f (6 * k) in
    '(_, _, _, _, _, ptr, ind, blocks, tb, tn) ← for_range 0 nnz (rcgbr_body (make_block choose) f roff coff blockcols)
      (p, None, prev_b, 0, 0, new_arr0 0 (wadd blockrows 1), new_arr nnzblocks, new_arr nnzblocks,
       new_arr0 0 MATRIX_TYPE_NUM, new_arr0 0 MATRIX_TYPE_NUM);
    ptr ← prefix_sum ptr blockrows;
    total ← aget ptr blockrows;
    _ ← assert_ (total =? nnzblocks);
    let A := Cgbr rows columns nnz blockrows blockcols nnzblocks roff coff blocks ptr ind tb tn in
    parts ← partition_init (cgbr_view cgbr1_nonzeros A) workers;
    Ok (0%Z, A, parts).
End BlockIo.
