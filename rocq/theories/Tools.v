(** Tools.v: the command line tools (src/tools) and the comparison of results used by the
    test programs (include/test/utils.h).

    The file system is a finite map from names to contents.  Simplified: every output file
    can be opened and written; messages and timing are not modelled; arguments are
    strings without zero characters.  A tool's result is its exit code and the file system
    it leaves ([Abort]: it has ended through exit or assert inside a library function, the
    file system is then not described). *)
From Verif Require Export Mm BlockIo Expand.
From stdpp Require Import gmap.

Notation fs := (gmap (list nat) (list nat)).

(** ** C strings in a fixed buffer *)
(** strncpy(buf, s, n): stops being terminated when s has n characters or more *)
Definition strncpy (buf : arr nat) (s : bytes) (n : nat) : outcome (arr nat) :=
  for_range 0 n (fun i buf => aset buf i (nth i s 0)) buf.
(** strlen, from the given cell on *)
Fixpoint strlen (buf : arr nat) : outcome nat :=
  match buf with
  | [] => Undef OutOfBounds
  | None :: _ => Undef Uninit
  | Some c :: buf' => if c =? 0 then Ok 0 else n ← strlen buf'; Ok (S n)
  end.
(** strcat(buf, s) *)
Definition strcat (buf : arr nat) (s : bytes) : outcome (arr nat) :=
  n ← strlen buf;
  buf ← for_range 0 (length s) (fun i buf => aset buf (n + i) (nth i s 0)) buf;
  aset buf (n + length s) 0.
(** the name a function such as fopen sees in the buffer *)
Definition c_name (buf : arr nat) : outcome bytes :=
  n ← strlen buf;
  for_range 0 n (fun i l => c ← aget buf i; Ok (l ++ [c])) [].
(** strncpy(buf, s, n); strcat(buf, suffix): the buffer and the name *)
Definition output_name (buf : arr nat) (s : bytes) (n : nat) (suffix : bytes) : outcome (arr nat * bytes) :=
  buf ← strncpy buf s n;
  buf ← strcat buf suffix;
  name ← c_name buf;
  Ok (buf, name).

(** all cells of an array *)
Fixpoint whole {A} (a : arr A) : outcome (list A) :=
  match a with
  | [] => Ok []
  | None :: _ => Undef Uninit
  | Some v :: a' => l ← whole a'; Ok (v :: l)
  end.

(** a parallel section on one array: the sequential schedule.  [run_is_a_schedule] (in
    ToolsProof.v): when all schedules agree, this is their result. *)
Definition par_do {V A} (p : buf -> prog V A) (l : list V) : outcome (A * list V) :=
  '(a, h) ← run (p [false]) (heap_of [false] l);
  l' ← read_back h [false] 0 (length l);
  Ok (a, l').

Section OneFile.
  Context `{Widths} (k : nat).
  Notation RI := (index_repr k).

  (** ** one2zero (src/tools/one2zero.c:10-71), INDEXTYPE of k bytes *)
  (** lines 48-58: the loop over the indices; [inr]: return 1 *)
  Definition one2zero_values (n : nat) (a : arr nat) : outcome (arr nat + Z) :=
    for_ret n (fun j a =>
      v ← aget a j;
      if v =? 0 then Ok (inr 1%Z) else a ← aset a j (v - 1); Ok (inl a)) a.
  (** one file (lines 22-68); [inr]: the program returns *)
  Definition one2zero_file (name : bytes) (F : fs) (buf : arr nat) : outcome ((fs * arr nat) + Z * fs) :=
    '(buf, out) ← output_name buf name 121 (str ".zero");
    match F !! name with
    | None => Ok (inr (1%Z, F))
    | Some f =>
        n ← div_ (length f) k;
        let n := wrap n in
        let '(l, _) := fread_items RI n f in
        r ← one2zero_values n (full l ++ new_arr (n - length l));
        match r with
        | inr c => Ok (inr (c, F))
        | inl a => g ← write_bin_array RI a n; Ok (inl (<[out := g]> F, buf))
        end
    end.
  Fixpoint one2zero_files (names : list bytes) (F : fs) (buf : arr nat) : outcome (Z * fs) :=
    match names with
    | [] => Ok (0%Z, F)
    | name :: names =>
        r ← one2zero_file name F buf;
        match r with inr r => Ok r | inl (F, buf) => one2zero_files names F buf end
    end.
  Definition one2zero (args : list bytes) (F : fs) : outcome (Z * fs) :=
    match args with [] => Ok (1%Z, F) | _ => one2zero_files args F (new_arr 128) end.

  (** ** double2float (src/tools/double2float.c:12-54); [conv] is the cast *)
  Section Double2Float.
    Context {D S : Type} (RD : repr D) (RS : repr S) (conv : D -> S).
    (** lines 40-44 *)
    Definition d2f_loop (f : bytes) : outcome bytes :=
      '(_, out, _) ← while_ (Datatypes.S (Datatypes.S (length f)))
        (fun '(f, _, stop) => Ok (negb stop))
        (fun '(f, out, _) =>
           match fread1 RD None f with
           | (O, _, f) => Ok (f, out, true)
           | (_, v, f) => v ← use v; Ok (f, out ++ enc RS (conv v), false)
           end) (f, [], false);
      Ok out.
    (** one file (lines 25-50): the output is created before the input is looked at *)
    Definition d2f_file (name : bytes) (F : fs) (buf : arr nat) : outcome ((fs * arr nat) + Z * fs) :=
      '(buf, out) ← output_name buf name 121 (str ".float");
      let f_in := F !! name in
      let F := <[out := []]> F in
      match f_in with
      | None => Ok (inr (1%Z, F))
      | Some f => g ← d2f_loop f; Ok (inl (<[out := g]> F, buf))
      end.
    Fixpoint d2f_files (names : list bytes) (F : fs) (buf : arr nat) : outcome (Z * fs) :=
      match names with
      | [] => Ok (0%Z, F)
      | name :: names =>
          r ← d2f_file name F buf;
          match r with inr r => Ok r | inl (F, buf) => d2f_files names F buf end
      end.
    Definition double2float (args : list bytes) (F : fs) : outcome (Z * fs) :=
      match args with [] => Ok (1%Z, F) | _ => d2f_files args F (new_arr 128) end.
  End Double2Float.

  (** ** permute (src/tools/permute.cpp:15-98) *)
  (** lines 46-68 and 71-92: permute one file *)
  Definition permute_file (name : bytes) (permutation : list nat) (F : fs) (buf : arr nat) : outcome ((fs * arr nat) + Z * fs) :=
    '(ret, size, data) ← read_bin_array RI (F !! name);
    if (ret <? 0)%Z then Ok (inr (1%Z, F)) else
    l ← whole data;
    '(_, l) ← par_do (fun b => permute_array b permutation (wrap size)) l;
    '(buf, out) ← output_name buf name 118 (str ".permuted");
    g ← write_bin_array RI (full l) size;
    Ok (inl (<[out := g]> F, buf)).
  (** [invperm]: compiled with INVPERM (Makefile:91).  The inverse comes from new[] and is
      given to free() at the end; [forgiving] pretends that this is harmless. *)
  Definition permute_tool (invperm forgiving : bool) (rows cols perm : bytes) (F : fs) : outcome (Z * fs) :=
    '(ret, perm_size, data) ← read_bin_array RI (F !! perm);
    if (ret <? 0)%Z then Ok (1%Z, F) else
    permutation ← whole data;
    permutation ←
      (if invperm then '(_, h) ← run (invert_permutation [false] permutation (wrap perm_size)) ∅; read_back h [false] 0 (wrap perm_size)
       else Ok permutation);
    r ← permute_file cols permutation F (new_arr 128);
    match r with
    | inr r => Ok r
    | inl (F, buf) =>
        r ← permute_file rows permutation F buf;
        match r with
        | inr r => Ok r
        | inl (F, _) => if invperm && negb forgiving then Undef BadFree else Ok (0%Z, F)
        end
    end.
End OneFile.

Section Tools.
  Context {T : Type} `{Widths} (RT : repr T) (k : nat).
  Notation RI := (index_repr k).
  (** %lg and %f, see Mm.v *)
  Context (scan_g : bytes -> option T * bytes) (print_f : T -> bytes).
  (** the reader of three files the tools call (read_bin_COO for Coo2 and Coo3,
      include/io/input.h:201-268): [read_bin_COO3_generic], or what it was meant to be *)
  Context (reader : option bytes -> option bytes -> option bytes -> outcome (Z * option (rawcoo T))).

  (** the elements of a matrix filled by a reader; the block field is written before it is
      used *)
  Definition coo_of_raw (A : rawcoo T) : outcome (coo T) :=
    r ← whole (Io.r_row A); c ← whole (Io.r_col A); v ← whole (Io.r_val A);
    Ok (Coo (Io.r_rows A) (Io.r_cols A) ((fun '(r, (c, v)) => Elem r c v 0) <$> zip r (zip c v))).

  (** ** convert_blocked (src/tools/convert_blocked.cpp:21-103) *)
  Definition convert_blocked (rows cols vals sizes out : bytes) (F : fs) : outcome (Z * fs) :=
    '(ret, size, block_sizes) ← read_bin_array RI (F !! sizes);
    if (ret <? 0)%Z then Ok (1%Z, F) else
    let blockrows := wrap size in
    block_offsets ← size_to_offset (new_arr (size + 1)) block_sizes blockrows;
    _ ← aget block_offsets blockrows;
    '(ret, A) ← reader (F !! rows) (F !! cols) (F !! vals);
    if (ret <? 0)%Z then Ok (1%Z, F) else
    A ← use A; B ← coo_of_raw A;
    file ← make_block_file RT k B block_offsets blockrows block_offsets blockrows;
    Ok (0%Z, <[out := file]> F).

  (** ** convert (src/tools/convert.cpp:21-96) *)
  Definition convert (rows cols vals out mode : bytes) (F : fs) : outcome (Z * fs) :=
    let bin := str_eqb mode (str "bin") || str_eqb mode (str "all") in
    let mtx := str_eqb mode (str "mtx") || str_eqb mode (str "all") in
    if negb (bin || mtx) then Ok (1%Z, F) else
    '(ret, A) ← reader (F !! rows) (F !! cols) (F !! vals);
    if (ret <? 0)%Z then Ok (1%Z, F) else
    A ← use A; B ← coo_of_raw A;
    E ← sort_triplets false (c_elems B);
    let B := Coo (c_rows B) (c_cols B) E in
    '(F, buf) ←
      (if mtx then
         '(buf, name) ← output_name (new_arr 128) out 118 (str ".mtx");
         f ← write_mm_COO print_f B;
         Ok (<[name := f]> F, buf)
       else Ok (F, new_arr 128));
    if bin then
      '(_, name) ← output_name buf out 118 (str ".bin");
      Ok (0%Z, <[name := write_bin_COO RT k B]> F)
    else Ok (0%Z, F).

  (** ** sort (src/tools/sort.cpp:14-102), by the number of arguments.  With two arguments
      argv[4] is beyond the end of argv; block sizes are given to sort_triplets_blocks as
      if they were offsets.  [fuel]: see read_mm_COO. *)
  Definition sort_tool (fuel : nat) (args : list bytes) (F : fs) : outcome (Z * fs) :=
    match args with
    | [m] =>
        '(ret, A) ← read_mm_COO scan_g fuel (F !! m);
        if (ret <? 0)%Z then Ok (1%Z, F) else
        A ← use A; B ← coo_of_raw (RawCoo (Io.r_rows A) (Io.r_cols A) (Io.r_nnz A) (take (Io.r_nnz A) (Io.r_row A)) (take (Io.r_nnz A) (Io.r_col A)) (take (Io.r_nnz A) (Io.r_val A)));
        E ← sort_triplets true (c_elems B);
        '(_, name) ← output_name (new_arr 128) m 118 (str ".sorted");
        f ← write_mm_COO print_f (Coo (c_rows B) (c_cols B) E);
        Ok (0%Z, <[name := f]> F)
    | [_; _] => Undef OutOfBounds
    | r :: c :: v :: bs =>
        if (2 <=? length bs) then Ok (1%Z, F) else
        sizes ← (match bs with b :: _ => s ← read_bin_array RI (F !! b); Ok (Some s) | [] => Ok None end);
        '(ret, A) ← reader (F !! r) (F !! c) (F !! v);
        if (ret <? 0)%Z || match sizes with Some (ret2, _, _) => (ret2 <? 0)%Z | None => false end then Ok (1%Z, F) else
        A ← use A; B ← coo_of_raw A;
        E ← (match sizes with
             | Some (_, size, bs) => sort_triplets_blocks (c_elems B) bs (wrap size) bs (wrap size)
             | None => sort_triplets true (c_elems B)
             end);
        let '(fr, fc, fv) := write_bin_COO3 RT k (Coo (c_rows B) (c_cols B) E) in
        '(_, nr) ← output_name (new_arr 128) r 118 (str ".sorted");
        '(_, nc) ← output_name (new_arr 128) c 118 (str ".sorted");
        '(_, nv) ← output_name (new_arr 128) v 118 (str ".sorted");
        Ok (0%Z, <[nv := fv]> (<[nc := fc]> (<[nr := fr]> F)))
    | [] => Ok (1%Z, F)
    end.

  (** ** expanded (src/tools/expanded.cpp:17-93) *)
  (** the result of the reader is not checked *)
  Definition expanded (rows cols vals sizes out : bytes) (F : fs) : outcome (Z * fs) :=
    '(ret, blocks, block_size) ← read_bin_array RI (F !! sizes);
    if (ret <? 0)%Z then Ok (1%Z, F) else
    block_offset ← size_to_offset (new_arr (blocks + 1)) block_size (wrap blocks);
    _ ← aget block_offset blocks;
    let blockrows := wrap blocks in
    '(_, A) ← reader (F !! rows) (F !! cols) (F !! vals);
    A ← use A; B ← coo_of_raw A;
    E ← calculate_block_id (c_elems B) block_offset blockrows block_offset blockrows;
    E ← sort_triplets false E;
    '(new_block_size, E) ← par_do (fun b => expand_elements b (length E) block_size block_offset blockrows) E;
    '(_, name) ← output_name (new_arr 256) out 246 (str ".exp" ++ print_dec (N.of_nat new_block_size));
    Ok (0%Z, <[name := write_bin_COO RT k (Coo (wmul new_block_size blockrows) (wmul new_block_size blockrows) E)]> F).

  (** ** prepare (src/tools/prepare.cpp:20-232) *)
  Definition TMPROWS : bytes := str "/tmp/csbr_prepare/rows".
  Definition TMPCOLS : bytes := str "/tmp/csbr_prepare/cols".
  (** lines 50-66 and 72-90: permute an index file into a temporary one *)
  Definition prepare_permute (name tmp : bytes) (permutation : list nat) (F : fs) : outcome (fs + Z * fs) :=
    '(ret, size, data) ← read_bin_array RI (F !! name);
    if (ret <? 0)%Z then Ok (inr (1%Z, F)) else
    l ← whole data;
    '(_, l) ← par_do (fun b => permute_array b permutation (wrap size)) l;
    g ← write_bin_array RI (full l) size;
    Ok (inl (<[tmp := g]> F)).
  (** lines 110-229, once the permuted matrix is there *)
  Definition prepare_write (blocks : nat) (block_sizes block_offsets : arr nat) (B : coo T) (out : bytes) (F : fs) : outcome (Z * fs) :=
    let blockrows := wrap blocks in
    E ← calculate_block_id (c_elems B) block_offsets blockrows block_offsets blockrows;
    E ← sort_triplets true E;
    '(buf, name) ← output_name (new_arr 256) out 246 (str ".row");
    let F := <[name := write_bin_COO RT k (Coo (c_rows B) (c_cols B) E)]> F in
    E ← sort_elements_blocks E;
    nnzblocks ← count_blocks E;
    '(buf, name) ← output_name buf out 246 (str ".block");
    let F := <[name := write_bin_blocked RT k (Coo (c_rows B) (c_cols B) E) blockrows blockrows nnzblocks]> F in
    E ← sort_triplets false E;
    '(buf, name) ← output_name buf out 246 (str ".col");
    let F := <[name := write_bin_COO RT k (Coo (c_rows B) (c_cols B) E)]> F in
    '(new_block_size, E) ← par_do (fun b => expand_elements b (length E) block_sizes block_offsets blockrows) E;
    '(_, name) ← output_name buf out 236 (str ".col.exp" ++ print_dec (N.of_nat new_block_size));
    let F := <[name := write_bin_COO RT k (Coo (wmul new_block_size blockrows) (wmul new_block_size blockrows) E)]> F in
    Ok (0%Z, delete TMPROWS (delete TMPCOLS F)).
  Definition prepare (rows cols vals perm sizes out : bytes) (F : fs) : outcome (Z * fs) :=
    '(ret, perm_size, data) ← read_bin_array RI (F !! perm);
    if (ret <? 0)%Z then Ok (1%Z, F) else
    permutation ← whole data;
    r ← prepare_permute rows TMPROWS permutation F;
    match r with
    | inr r => Ok r
    | inl F =>
        r ← prepare_permute cols TMPCOLS permutation F;
        match r with
        | inr r => Ok r
        | inl F =>
            '(ret, blocks, block_sizes) ← read_bin_array RI (F !! sizes);
            if (ret <? 0)%Z then Ok (1%Z, F) else
            block_offsets ← size_to_offset (new_arr (blocks + 1)) block_sizes (wrap blocks);
            _ ← aget block_offsets (wrap blocks);
            '(ret, A) ← reader (F !! TMPROWS) (F !! TMPCOLS) (F !! vals);
            if (ret <? 0)%Z then Ok (1%Z, F) else
            A ← use A; B ← coo_of_raw A;
            prepare_write blocks block_sizes block_offsets B out F
        end
    end.
End Tools.

(** ** Comparison of two result vectors *)
Section Check.
  Context {T : Type} `{Widths}.
  (** the comparison != of T; no law is assumed (a NaN differs from itself) *)
  Context (neq : T -> T -> bool).
  (** check_results (include/test/utils.h:71-107): the returned value.  The error measures
      are only printed and not modelled. *)
  Definition check_results (vec1 vec2 : list T) (size : nat) : outcome Z :=
    wrong ← for_range 0 size (fun i wrong =>
      a ← lget vec1 i; b ← lget vec2 i;
      Ok (if neq a b then wadd wrong 1 else wrong)) 0;
    Ok (if 0 <? wrong then (-1)%Z else 0%Z).
End Check.
