(** Io.v: binary files (include/io/input.h, include/io/output.h).

    A file is its list of bytes (numbers below 256); [None] is a name that cannot be
    opened.  Streams are read from the front.  Modelled: sizes, order and encoding of
    what is read and written, short reads, return codes, uninitialised variables, closing
    of streams.  Not modelled: failing writes, malloc returning NULL, messages. *)
From Verif Require Export Utils Csr.

Notation bytes := (list nat).

(** the object representation of a type: its size and how values are laid out *)
Record repr (A : Type) := Repr { sz : nat; enc : A -> bytes; dec : bytes -> A }.
Arguments Repr {A}. Arguments sz {A}. Arguments enc {A}. Arguments dec {A}.

(** an unsigned type of k bytes, least significant byte first *)
Fixpoint le_bytes (k n : nat) : bytes :=
  match k with O => [] | S k' => (n mod 256) :: le_bytes k' (n / 256) end.
Fixpoint le_val (l : bytes) : nat :=
  match l with [] => 0 | b :: l' => b + 256 * le_val l' end.
Definition index_repr (k : nat) : repr nat := {| sz := k; enc := le_bytes k; dec := le_val |}.

(** fread(&buffer, sizeof(A), 1, f): the number of items read, the buffer and the rest of
    the stream.  At the end of the file the buffer keeps its value, after part of an item
    its value is indeterminate (None). *)
Definition fread1 {A} (R : repr A) (buffer : option A) (f : bytes) : nat * option A * bytes :=
  if decide (sz R <= length f) then (1, Some (dec R (take (sz R) f)), drop (sz R) f)
  else (0, match f with [] => buffer | _ => None end, []).
(** fread(data, sizeof(A), n, f): the items read *)
Fixpoint fread_items {A} (R : repr A) (n : nat) (f : bytes) : list A * bytes :=
  match n with
  | O => ([], f)
  | S n' =>
      if decide (sz R <= length f) then
        let '(l, f') := fread_items R n' (drop (sz R) f) in (dec R (take (sz R) f) :: l, f')
      else ([], [])
  end.
(** fwrite of n items *)
Definition fwrite {A} (R : repr A) (l : list A) : bytes := concat (enc R <$> l).

(** assignment of a possibly indeterminate value to an array cell *)
Definition astore {A} (a : arr A) (i : nat) (v : option A) : outcome (arr A) :=
  if decide (i < length a) then Ok (<[i := v]> a) else Undef OutOfBounds.

(** get_file_size (src/common.cpp:84-99): exits when the file cannot be opened *)
Definition get_file_size (file : option bytes) : outcome nat :=
  match file with None => Abort | Some f => Ok (length f) end.

(** read_bin_array (include/io/input.h:16-34): return code, *num and *data; the result is
    the code and the array *)
Definition read_bin_array {A} (R : repr A) (file : option bytes) : outcome (Z * nat * arr A) :=
  fsize ← get_file_size file;
  size ← div_ fsize (sz R);
  match file with
  | None => Ok ((-2)%Z, size, new_arr size)
  | Some f =>
      let '(l, _) := fread_items R size f in
      let data := full l ++ new_arr (size - length l) in
      if length l <? size then Ok ((-3)%Z, size, data) else Ok (0%Z, size, data)
  end.
(** write_bin_array (include/io/output.h:12-26) of the first num items: the file *)
Definition write_bin_array {A} (R : repr A) (data : arr A) (num : nat) : outcome bytes :=
  l ← for_range 0 num (fun i l => v ← aget data i; Ok (l ++ [v])) [];
  Ok (fwrite R l).

(** a coordinate matrix as the readers fill it: field arrays, cells possibly without a
    value (Coo2 / Coo3 / Coo; an array of structures is modelled by one array per field) *)
Record rawcoo (T : Type) := RawCoo { r_rows : nat; r_cols : nat; r_nnz : nat; r_row : arr nat; r_col : arr nat; r_val : arr T }.
Arguments RawCoo {T}. Arguments r_rows {T}. Arguments r_cols {T}. Arguments r_nnz {T}. Arguments r_row {T}. Arguments r_col {T}. Arguments r_val {T}.

Section Bin.
  Context {T : Type} `{Widths} (RT : repr T) (k : nat).
  (** IT is an unsigned type of k bytes (the arithmetic below assumes it is not narrower
      than int, as for every instantiation in /repo) *)
  Notation RI := (index_repr k).

  (** write_bin_COO to one .bin file (include/io/output.h:136-174) *)
  Definition write_bin_COO (A : coo T) : bytes :=
    enc RI (c_rows A) ++ enc RI (c_cols A) ++ enc RI (c_nnz A) ++
    fwrite RI (row <$> c_elems A) ++ fwrite RI (col <$> c_elems A) ++ fwrite RT (val <$> c_elems A).

  (** one of the three loops of read_bin_COO (include/io/input.h:302-318): counter += fread
      into a local variable, which is stored in the array *)
  Definition read_loop {A} (R : repr A) (n : nat) (st : nat * option A * bytes) (a : arr A) : outcome (nat * option A * bytes * arr A) :=
    for_range 0 n (fun i '(counter, buffer, f, a) =>
      let '(m, buffer, f) := fread1 R buffer f in
      a ← astore a i buffer;
      Ok (wadd counter m, buffer, f, a)) (st, a).

  (** read_bin_COO from one .bin file (include/io/input.h:273-328): the return code and the
      matrix when it was allocated *)
  Definition read_bin_COO (file : option bytes) : outcome (Z * option (rawcoo T)) :=
    match file with
    | None => Ok ((-1)%Z, None)
    | Some f =>
        let '(n1, rows, f) := fread1 RI None f in
        let '(n2, columns, f) := fread1 RI None f in
        let '(n3, nnz, f) := fread1 RI None f in
        if negb (n1 + n2 + n3 =? 3) then Ok ((-2)%Z, None)
        else match rows, columns, nnz with
        | Some rows, Some columns, Some nnz =>
            '(counter, buffer, f, ai) ← read_loop RI nnz (0, None, f) (new_arr nnz);
            '(counter, buffer, f, aj) ← read_loop RI nnz (counter, buffer, f) (new_arr nnz);
            '(counter, vbuffer, f, av) ← read_loop RT nnz (counter, None, f) (new_arr nnz);
            let A := RawCoo rows columns nnz ai aj av in
            if negb (counter =? wmul 3 nnz) then Ok ((-4)%Z, Some A) else Ok (0%Z, Some A)
        | _, _, _ => Undef Uninit
        end
    end.

  (** read_bin_CSR (include/io/input.h:353-397); no read is checked *)
  Definition read_bin_CSR (file : option bytes) : outcome (Z * option (csr T)) :=
    match file with
    | None => Ok ((-1)%Z, None)
    | Some f =>
        let '(_, rows, f) := fread1 RI None f in
        let '(_, columns, f) := fread1 RI None f in
        let '(_, nnz, f) := fread1 RI None f in
        match rows, columns, nnz with
        | Some rows, Some columns, Some nnz =>
            '(current_row, f, ptr) ← for_range 0 nnz
              (fun i '(current_row, f, ptr) =>
                 let '(_, current_row, f) := fread1 RI current_row f in
                 match current_row with
                 | None => Undef Uninit
                 | Some r => ptr ← incr ptr (wadd r 1); Ok (current_row, f, ptr)
                 end) (None, f, new_arr0 0 (wadd rows 1));
            let '(ind, f) := fread_items RI nnz f in
            let '(v, f) := fread_items RT nnz f in
            ptr ← prefix_sum ptr rows;
            total ← aget ptr rows;
            _ ← assert_ (total =? nnz);
            Ok (0%Z, Some (Csr rows columns ptr (full ind ++ new_arr (nnz - length ind)) (full v ++ new_arr (nnz - length v))))
        | _, _, _ => Undef Uninit
        end
    end.

  (** ** Three files *)
  (** write_bin_COO to three files (include/io/output.h:83-130): row, column, value file *)
  Definition write_bin_COO3 (A : coo T) : bytes * bytes * bytes :=
    (fwrite RI (row <$> c_elems A), fwrite RI (col <$> c_elems A), fwrite RT (val <$> c_elems A)).

  (** fclose: closing a stream that is not open is undefined; [forgiving] pretends it is
      not, to see what the rest of the function does *)
  Definition fclose (forgiving : bool) (is_open : bool) : outcome bool :=
    if is_open then Ok false else if forgiving then Ok false else Undef BadFree.

  (** the largest of size cells: the loops of include/io/input.h:157-159 and 171-173 *)
  Definition max_loop (a : arr nat) (size : nat) : outcome nat :=
    for_range 0 size (fun i m => v ← aget a i; Ok (if m <? v then v else m)) 0.

  (** read_bin_COO for Coo (three arrays) from three files (include/io/input.h:135-193); the
      size of the value file is cast to IT before it is divided; the result also says
      whether the value file has been left open *)
  Definition read_bin_COO3 (forgiving : bool) (file_row file_col file_val : option bytes) : outcome (Z * option (rawcoo T * bool)) :=
    fsize ← get_file_size file_val;
    size ← div_ (wrap fsize) (sz RT);
    match file_row with
    | None => Ok ((-1)%Z, None)
    | Some fr =>
        let '(ai, _) := fread_items RI size fr in
        let ai := full ai ++ new_arr (size - length ai) in
        max_row ← max_loop ai size;
        match file_col with
        | None => Ok ((-1)%Z, None)
        | Some fc =>
            let '(aj, _) := fread_items RI size fc in
            let aj := full aj ++ new_arr (size - length aj) in
            max_col ← max_loop aj size;
            fc_open ← fclose forgiving true;
            match file_val with
            | None => Undef OutOfBounds
            | Some fv =>
                let '(av, _) := fread_items RT size fv in
                let av := full av ++ new_arr (size - length av) in
                fc_open ← fclose forgiving fc_open;
                Ok (0%Z, Some (RawCoo (wadd max_row 1) (wadd max_col 1) size ai aj av, true))
            end
        end
    end.

  (** counter += n, where counter has no value at first *)
  Definition count_up (counter : option nat) (n : nat) : outcome (option nat) :=
    match counter with None => Undef Uninit | Some c => Ok (Some (wadd c n)) end.
  Definition read_loop3 {A} (R : repr A) (n : nat) (counter : option nat) (buffer : option A) (f : bytes) (a : arr A) :=
    for_range 0 n (fun i '(counter, buffer, f, a) =>
      let '(m, buffer, f) := fread1 R buffer f in
      counter ← count_up counter m;
      a ← astore a i buffer;
      Ok (counter, buffer, f, a)) (counter, buffer, f, a).
  (** read_bin_COO for Coo2 / Coo3 from three files (include/io/input.h:201-268): counter,
      max_row and max_col are never initialised; [counter0] is what counter holds at first,
      None in C++ *)
  Definition read_bin_COO3_generic (forgiving : bool) (counter0 : option nat) (file_row file_col file_val : option bytes) : outcome (Z * option (rawcoo T)) :=
    fsize ← get_file_size file_val;
    size ← div_ (wrap fsize) (sz RT);
    match file_row with
    | None => Ok ((-1)%Z, None)
    | Some fr =>
        '(counter, buffer, _, ai) ← read_loop3 RI size counter0 None fr (new_arr size);
        match file_col with
        | None => Ok ((-1)%Z, None)
        | Some fc =>
            '(counter, buffer, _, aj) ← read_loop3 RI size counter buffer fc (new_arr size);
            fc_open ← fclose forgiving true;
            match file_val with
            | None => Undef OutOfBounds
            | Some fv =>
                '(counter, vbuffer, _, av) ← read_loop3 RT size counter None fv (new_arr size);
                fc_open ← fclose forgiving fc_open;
                let max_row : option nat := None in
                let max_col : option nat := None in
                match max_row, max_col with
                | Some max_row, Some max_col => Ok (0%Z, Some (RawCoo (wadd max_row 1) (wadd max_col 1) size ai aj av))
                | _, _ => Undef Uninit
                end
            end
        end
    end.
End Bin.
