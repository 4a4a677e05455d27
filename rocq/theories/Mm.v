(** Mm.v: Matrix Market text (dep/mm_io/mm_io.c, include/io/input.h:36-127,
    include/io/output.h:28-75, src/common.cpp:67-79).

    Simplified: an index type IT that is unsigned and not narrower than int; unsigned long
    has a whole number of index widths, so (IT)(r-1) is computed modulo the width of IT.
    The conversions %lg (with the cast to the value type) and %f are parameters [scan_g] and
    [print_f].  Not modelled: messages, malloc returning NULL, write errors. *)
From Verif Require Export Csbr Text.


(** string_ends_with (src/common.cpp:71-79); strings without zero characters, shorter than
    INT_MAX *)
Definition string_ends_with (s suffix : bytes) : bool :=
  (length suffix <=? length s) && str_eqb (drop (length s - length suffix) s) suffix.

(** MM_typecode, dep/mm_io/mm_io.h:20: four characters *)
Record typecode := TypeCode { t_object : nat; t_format : nat; t_field : nat; t_symmetry : nat }.
Definition chr (a : ascii) : nat := Ascii.nat_of_ascii a.
Arguments chr _%char_scope.
(** dep/mm_io/mm_io.h:45-60 *)
Definition mm_is_matrix (t : typecode) := t_object t =? chr "M".
Definition mm_is_coordinate (t : typecode) := t_format t =? chr "C".
Definition mm_is_array (t : typecode) := t_format t =? chr "A".
Definition mm_is_complex (t : typecode) := t_field t =? chr "C".
Definition mm_is_real (t : typecode) := t_field t =? chr "R".
Definition mm_is_pattern (t : typecode) := t_field t =? chr "P".
Definition mm_is_integer (t : typecode) := t_field t =? chr "I".
Definition mm_is_symmetric (t : typecode) := t_symmetry t =? chr "S".
Definition mm_is_general (t : typecode) := t_symmetry t =? chr "G".
Definition mm_is_skew (t : typecode) := t_symmetry t =? chr "K".
Definition mm_is_hermitian (t : typecode) := t_symmetry t =? chr "H".
(** mm_clear_typecode, dep/mm_io/mm_io.h:83-84 *)
Definition mm_clear : typecode := TypeCode (chr " ") (chr " ") (chr " ") (chr "G").
(** mm_is_valid (dep/mm_io/mm_io.c:11-51) *)
Definition mm_is_valid (t : typecode) : bool :=
  if negb (mm_is_matrix t) then false
  else if mm_is_array t && mm_is_pattern t then false
  else if mm_is_real t && mm_is_hermitian t then false
  else if mm_is_pattern t && (mm_is_hermitian t || mm_is_skew t) then false
  else true.

(** error codes, dep/mm_io/mm_io.h:91-97 *)
Definition MM_PREMATURE_EOF : Z := 12.
Definition MM_NO_HEADER : Z := 14.
Definition MM_UNSUPPORTED_TYPE : Z := 15.
Definition MM_COULD_NOT_WRITE_FILE : Z := 17.
(** dep/mm_io/mm_io.h:16-18 *)
Definition MM_MAX_LINE_LENGTH : nat := 1025.
Definition MM_MAX_TOKEN_LENGTH : nat := 64.
Definition MatrixMarketBanner : bytes := str "%%MatrixMarket".

(** sscanf(line, "%s %s ...") with n conversions: the words stored *)
Fixpoint sscanf_words (n : nat) (s : bytes) : outcome (list bytes) :=
  match n with
  | O => Ok []
  | S n' => '(w, r) ← scan_s MM_MAX_TOKEN_LENGTH s;
            match w with Got w => l ← sscanf_words n' r; Ok (w :: l) | _ => Ok [] end
  end.
(** the last part of mm_read_banner (dep/mm_io/mm_io.c:101-165); the words in lower case *)
Definition banner_fields (t : typecode) (mtx crd data_type storage : bytes) : Z * typecode :=
  if negb (str_eqb mtx (str "matrix")) then (MM_UNSUPPORTED_TYPE, t) else
  let t := TypeCode (chr "M") (t_format t) (t_field t) (t_symmetry t) in
  match (if str_eqb crd (str "coordinate") then Some (chr "C") else if str_eqb crd (str "array") then Some (chr "A") else None) with
  | None => (MM_UNSUPPORTED_TYPE, t)
  | Some c =>
      let t := TypeCode (t_object t) c (t_field t) (t_symmetry t) in
      match (if str_eqb data_type (str "real") then Some (chr "R") else if str_eqb data_type (str "complex") then Some (chr "C")
             else if str_eqb data_type (str "pattern") then Some (chr "P") else if str_eqb data_type (str "integer") then Some (chr "I") else None) with
      | None => (MM_UNSUPPORTED_TYPE, t)
      | Some c =>
          let t := TypeCode (t_object t) (t_format t) c (t_symmetry t) in
          match (if str_eqb storage (str "general") then Some (chr "G") else if str_eqb storage (str "symmetric") then Some (chr "S")
                 else if str_eqb storage (str "hermitian") then Some (chr "H") else if str_eqb storage (str "skew-symmetric") then Some (chr "K") else None) with
          | None => (MM_UNSUPPORTED_TYPE, t)
          | Some c => (0%Z, TypeCode (t_object t) (t_format t) (t_field t) c)
          end
      end
  end.
(** mm_read_banner (dep/mm_io/mm_io.c:54-166): return code, type code, rest of the file *)
Definition mm_read_banner (f : bytes) : outcome (Z * typecode * bytes) :=
  match fgets MM_MAX_LINE_LENGTH f with
  | None => Ok (MM_PREMATURE_EOF, mm_clear, f)
  | Some (line, f) =>
      words ← sscanf_words 5 (c_string line);
      match words with
      | [banner; mtx; crd; data_type; storage] =>
          if negb (has_prefix MatrixMarketBanner banner) then Ok (MM_NO_HEADER, mm_clear, f)
          else let '(code, t) := banner_fields mm_clear (lower mtx) (lower crd) (lower data_type) (lower storage) in Ok (code, t, f)
      | _ => Ok (MM_PREMATURE_EOF, mm_clear, f)
      end
  end.

(** scanf("%d %d %d", M, N, nz): the value returned (-1: EOF), the variables, the rest *)
Definition scan_ddd (s : bytes) (v : Z * Z * Z) : outcome (Z * (Z * Z * Z) * bytes) :=
  let '(m, n, nz) := v in
  '(a, s) ← scan_d s;
  match a with
  | AtEnd => Ok ((-1)%Z, v, s)
  | NoMatch => Ok (0%Z, v, s)
  | Got m =>
      '(b, s) ← scan_d s;
      match b with
      | Got n =>
          '(c, s) ← scan_d s;
          match c with Got nz => Ok (3%Z, (m, n, nz), s) | _ => Ok (2%Z, (m, n, nz), s) end
      | _ => Ok (1%Z, (m, n, nz), s)
      end
  end.
(** the first loop of mm_read_mtx_crd_size (dep/mm_io/mm_io.c:444-450): the first line that
    does not begin with '%' *)
Fixpoint skip_comments (fuel : nat) (f : bytes) : outcome (option (bytes * bytes)) :=
  match fuel with
  | O => Diverge
  | S k => match fgets MM_MAX_LINE_LENGTH f with
           | None => Ok None
           | Some (line, f) => if nth 0 line 0 =? chr "%" then skip_comments k f else Ok (Some (line, f))
           end
  end.
(** the second loop (dep/mm_io/mm_io.c:460-467) *)
Fixpoint size_loop (fuel : nat) (f : bytes) (v : Z * Z * Z) : outcome (Z * (Z * Z * Z) * bytes) :=
  match fuel with
  | O => Diverge
  | S k => '(ret, v, f) ← scan_ddd f v;
           if (ret =? -1)%Z then Ok (MM_PREMATURE_EOF, v, f)
           else if (ret =? 3)%Z then Ok (0%Z, v, f) else size_loop k f v
  end.
(** mm_read_mtx_crd_size (dep/mm_io/mm_io.c:407-470): return code, M, N, nz, rest.  Every
    line has a character, so the first loop ends; [fuel] bounds the second *)
Definition mm_read_mtx_crd_size (fuel : nat) (f : bytes) : outcome (Z * (Z * Z * Z) * bytes) :=
  r ← skip_comments (S (length f)) f;
  match r with
  | None => Ok (MM_PREMATURE_EOF, (0, 0, 0)%Z, [])
  | Some (line, f) =>
      '(ret, v, _) ← scan_ddd (c_string line) (0, 0, 0)%Z;
      if (ret =? 3)%Z then Ok (0%Z, v, f) else size_loop fuel f v
  end.

(** ** writing *)
(** mm_typecode_to_str (dep/mm_io/mm_io.c:585-658): None is NULL.  types[0] is left unset
    when the object is not 'M' *)
Definition mm_typecode_to_str (t : typecode) : outcome (option bytes) :=
  match (if mm_is_coordinate t then Some (str "coordinate") else if mm_is_array t then Some (str "array") else None) with
  | None => Ok None
  | Some t1 =>
      match (if mm_is_real t then Some (str "real") else if mm_is_complex t then Some (str "complex")
             else if mm_is_pattern t then Some (str "pattern") else if mm_is_integer t then Some (str "integer") else None) with
      | None => Ok None
      | Some t2 =>
          match (if mm_is_general t then Some (str "general") else if mm_is_symmetric t then Some (str "symmetric")
                 else if mm_is_hermitian t then Some (str "hermitian") else if mm_is_skew t then Some (str "skew-symmetric") else None) with
          | None => Ok None
          | Some t3 => if mm_is_matrix t then Ok (Some (str "matrix" ++ [32] ++ t1 ++ [32] ++ t2 ++ [32] ++ t3)) else Undef Uninit
          end
      end
  end.
(** mm_write_banner (dep/mm_io/mm_io.c:661-687): return code and text; fprintf returns the
    number of characters.  Printing a NULL string is undefined *)
Definition mm_write_banner (t : typecode) : outcome (Z * bytes) :=
  s ← mm_typecode_to_str t;
  match s with
  | None => Undef Uninit
  | Some s =>
      let text := MatrixMarketBanner ++ [32] ++ s ++ [10] in
      Ok (if (Z.of_nat (length text) =? 2)%Z then 0%Z else MM_COULD_NOT_WRITE_FILE, text)
  end.
(** mm_write_mtx_crd_size (dep/mm_io/mm_io.c:771-796) *)
Definition mm_write_mtx_crd_size (m n nz : Z) : Z * bytes :=
  let text := print_int m ++ [32] ++ print_int n ++ [32] ++ print_int nz ++ [10] in
  (if (Z.of_nat (length text) =? 3)%Z then 0%Z else MM_COULD_NOT_WRITE_FILE, text).

Section Mm.
  Context {T : Type} `{Widths}.
  (** %lg, from the first character that is no space: the value, if any, and the rest *)
  Context (scan_g : bytes -> option T * bytes).
  (** %f *)
  Context (print_f : T -> bytes).

  (** conversion of an index to the int parameter of mm_write_mtx_crd_size *)
  Definition to_int (n : nat) : Z := let z := (Z.of_nat n mod 2 ^ 32)%Z in if (int_max <? z)%Z then (z - 2 ^ 32)%Z else z.
  (** one line of the file (include/io/output.h:64-69) *)
  Definition mm_line (e : elem T) : bytes :=
    print_dec (N.of_nat (row e) + 1) ++ [32] ++ print_dec (N.of_nat (col e) + 1) ++ [32] ++ print_f (val e) ++ [10].
  (** write_mm_COO (include/io/output.h:33-75): the file; the codes of the two header
      functions are ignored *)
  Definition write_mm_COO (B : coo T) : outcome bytes :=
    '(_, banner) ← mm_write_banner (TypeCode (chr "M") (chr "C") (chr "R") (chr "G"));
    let '(_, size) := mm_write_mtx_crd_size (to_int (c_rows B)) (to_int (c_cols B)) (to_int (c_nnz B)) in
    Ok (banner ++ size ++ concat (mm_line <$> c_elems B)).

  (** the variables r, c and val of read_mm_COO *)
  Definition vars : Type := option N * option N * option T.
  (** fscanf(f, "%lu %lu %lg\n", &r, &c, &val) (include/io/input.h:89 and 110): the value
      returned (-1: EOF), the variables, the rest *)
  Definition scan_entry (s : bytes) (v : vars) : outcome (Z * vars * bytes) :=
    let '(r, c, x) := v in
    '(a, s) ← scan_lu s;
    match a with
    | AtEnd => Ok ((-1)%Z, v, s)
    | NoMatch => Ok (0%Z, v, s)
    | Got r =>
        '(b, s) ← scan_lu s;
        match b with
        | Got c =>
            match skip_space s with
            | [] => Ok (2%Z, (Some r, Some c, x), [])
            | s => match scan_g s with
                   | (None, s) => Ok (2%Z, (Some r, Some c, x), s)
                   | (Some x, s) => Ok (3%Z, (Some r, Some c, Some x), skip_space s)
                   end
            end
        | _ => Ok (1%Z, (Some r, c, x), s)
        end
    end.

  (** (IT) n for an int n *)
  Definition int_to_index (z : Z) : nat := Z.to_nat (z mod Z.of_nat itW).
  (** (IT) (r - 1) *)
  Definition index_of (r : N) : nat := wsub (N.to_nat (r mod N.of_nat itW)) 1.
  (** one turn of the first pass over a symmetric file (include/io/input.h:89-98); the state:
      left by break, i, counter, the variables, the rest of the file *)
  Definition count_step : bool * nat * N * vars * bytes -> outcome (bool * nat * N * vars * bytes) :=
    fun '(stop, i, counter, v, f) =>
      '(ret, v, f) ← scan_entry f v;
      if (ret =? -1)%Z then Ok (true, i, counter, v, f)
      else let '(r, c, _) := v in
           r ← use r; c ← use c;
           Ok (false, i + 1, (if (r =? c)%N then (counter + 1)%N else (counter + 2)%N), v, f).
  (** the first pass (include/io/input.h:87-99): counter, and the variables afterwards.
      2*nnz is computed as an int *)
  Definition count_pass (nnz : Z) (f : bytes) : outcome (N * vars) :=
    if (int_max <? 2 * nnz)%Z || (2 * nnz <? - int_max - 1)%Z then Undef Overflow else
    '(_, _, counter, v, _) ← while_ (S (S (int_to_index (2 * nnz))))
      (fun '(stop, i, _, _, _) => Ok (negb stop && (i <? int_to_index (2 * nnz))))
      count_step (false, 0, 0%N, (None, None, None), f);
    Ok (counter, v).
  (** set_point (include/matrix/coo.1.h) *)
  Definition set_point (ri ci : arr nat) (vs : arr T) (i r c : nat) (x : T) : outcome (arr nat * arr nat * arr T) :=
    ri ← aset ri i r; ci ← aset ci i c; vs ← aset vs i x; Ok (ri, ci, vs).
  (** one turn of the second pass (include/io/input.h:110-122); the state: the value of A->nnz
      if left by break, i, the arrays, the variables, the rest of the file *)
  Definition data_step (symflag : bool) : option nat * nat * (arr nat * arr nat * arr T) * vars * bytes ->
      outcome (option nat * nat * (arr nat * arr nat * arr T) * vars * bytes) :=
    fun '(stop, i, A, v, f) =>
      '(ret, v, f) ← scan_entry f v;
      if (ret =? -1)%Z then Ok (Some i, i, A, v, f)
      else let '(r, c, x) := v in
           let '(ri, ci, vs) := A in
           r ← use r; c ← use c; x ← use x;
           A ← set_point ri ci vs i (index_of r) (index_of c) x;
           if symflag && negb (r =? c)%N then
             let i := i + 1 in
             let '(ri, ci, vs) := A in
             A ← set_point ri ci vs i (index_of c) (index_of r) x;
             Ok (None, i + 1, A, v, f)
           else Ok (None, i + 1, A, v, f).
  (** the second pass (include/io/input.h:109-123): A->nnz and the arrays *)
  Definition data_pass (symflag : bool) (bound : nat) (f : bytes) (v : vars) : outcome (nat * (arr nat * arr nat * arr T)) :=
    '(stop, i, A, _, _) ← while_ (S (S bound))
      (fun '(stop, i, _, _, _) => Ok (match stop with None => i <? bound | Some _ => false end))
      (data_step symflag) (None, 0, (new_arr bound, new_arr bound, new_arr bound), v, f);
    Ok (match stop with Some n => n | None => bound end, A).
  (** read_mm_COO (include/io/input.h:43-127): return code and, with code 0, the matrix.
      [fuel] bounds the loop of mm_read_mtx_crd_size.  (int) counter: a counter above
      INT_MAX is reported as Overflow *)
  Definition read_mm_COO (fuel : nat) (file : option bytes) : outcome (Z * option (rawcoo T)) :=
    match file with
    | None => Ok ((-1)%Z, None)
    | Some f =>
        '(code, t, f) ← mm_read_banner f;
        if negb (code =? 0)%Z then Ok ((-2)%Z, None) else
        if mm_is_complex t || negb (mm_is_coordinate t) then Ok ((-3)%Z, None) else
        '(code, (nr, nc, nnz), f) ← mm_read_mtx_crd_size fuel f;
        if negb (code =? 0)%Z then Ok ((-4)%Z, None) else
        '(nnz, v) ←
          (if mm_is_symmetric t then
             '(counter, v) ← count_pass nnz f;
             if (int_max <? Z.of_N counter)%Z then Undef Overflow else Ok (Z.of_N counter, v)
           else Ok (nnz, (None, None, None)));
        '(n, (ri, ci, vs)) ← data_pass (mm_is_symmetric t) (int_to_index nnz) f v;
        Ok (0%Z, Some (RawCoo (int_to_index nr) (int_to_index nc) n ri ci vs))
    end.
End Mm.

(** read_COO (include/io/input.h:334-346), given the results of the two readers *)
Definition read_COO {R} (name : bytes) (bin mm : outcome (Z * R)) (none : R) : outcome (Z * R) :=
  if string_ends_with name (str ".bin") then bin
  else if string_ends_with name (str ".mtx") then mm
  else Ok ((-1)%Z, none).
