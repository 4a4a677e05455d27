(** Pprint.v: the tool that prints binary files (src/tools/pprint.c).

    The output is the text written to stdout.  INDEXTYPE has k bytes (uint32_t: k = 4),
    VALUETYPE is stored by RT.  [print_f], [print_e]: the texts printf makes of a value
    with %12f and %12e, parameters.  Not modelled: what is written to stderr (the usage
    text and "Could not open file."). *)
From Verif Require Export Tools.

(** printf with a field width of 12: padding with blanks on the left *)
Definition padded (w : nat) (s : bytes) : bytes := replicate (w - length s) 32 ++ s.
(** %12lu (lines 52, 58) and %12u (lines 79-83, 90) *)
Definition print_12 (n : nat) : bytes := padded 12 (print_dec (N.of_nat n)).
(** lines 54, 60 *)
Definition separator : bytes := str "---------------------------------------" ++ [10].

Section Pprint.
  Context {T : Type} `{Widths} (RT : repr T) (k : nat) (print_f print_e : T -> bytes).
  Notation RI := (index_repr k).

  (** fread(&buffer, ...); printf(..., buffer): no read is checked, so a buffer that has
      never been filled is printed as it is, which is undefined *)
  Definition show_next {A : Type} (R : repr A) (print : A -> bytes) (buffer : option A) (f out : bytes) : outcome (option A * bytes * bytes) :=
    let '(_, buffer, f) := fread1 R buffer f in
    v ← use buffer;
    Ok (buffer, f, out ++ print v).
  (** the loops of lines 50-53, 56-59, 62-65 *)
  Definition show_items {A : Type} (R : repr A) (print : A -> bytes) (nnz : nat) (buffer : option A) (f out : bytes) : outcome (option A * bytes * bytes) :=
    for_range 0 nnz (fun _ '(buffer, f, out) => show_next R (fun v => print v ++ [10]) buffer f out) (buffer, f, out).

  (** mode 0 (lines 43-66) *)
  Definition pprint_triples (f : bytes) : outcome bytes :=
    let '(_, r, f) := fread1 RI None f in
    let '(_, c, f) := fread1 RI None f in
    let '(_, nnz, f) := fread1 RI None f in
    r ← use r; c ← use c; nnz ← use nnz;
    let out := print_dec (N.of_nat r) ++ str " rows x " ++ print_dec (N.of_nat c) ++ str " columns, " ++
      print_dec (N.of_nat nnz) ++ str " non-zeros" ++ [10] in
    '(n, f, out) ← show_items RI print_12 nnz None f out;
    '(n, f, out) ← show_items RI print_12 nnz n f (out ++ separator);
    '(_, _, out) ← show_items RT print_f nnz None f (out ++ separator);
    Ok out.
  (** mode 1 (lines 68-86): of the header only nnz is looked at *)
  Definition show_record (n : option nat) (v : option T) (f out : bytes) : outcome (option nat * option T * bytes * bytes) :=
    '(n, f, out) ← show_next RI (fun n => print_12 n ++ [9]) n f out;
    '(n, f, out) ← show_next RI (fun n => print_12 n ++ [9]) n f out;
    '(n, f, out) ← show_next RI (fun n => print_12 n ++ [9]) n f out;
    '(v, f, out) ← show_next RT (fun v => print_e v ++ [10]) v f out;
    Ok (n, v, f, out).
  Definition pprint_blocks (f out : bytes) : outcome bytes :=
    let '(_, r, f) := fread1 RI None f in
    let '(_, c, f) := fread1 RI None f in
    let '(_, nnz, f) := fread1 RI None f in
    let '(_, n, f) := fread1 RI None f in
    let '(_, n, f) := fread1 RI n f in
    let '(_, n, f) := fread1 RI n f in
    nnz ← use nnz;
    '(_, _, _, out) ← for_range 0 nnz (fun _ '(n, v, f, out) => show_record n v f out) (n, None, f, out);
    Ok out.
  (** mode 2 (lines 88-90) *)
  Definition pprint_vector (f : bytes) : outcome bytes :=
    '(_, out, _) ← while_ (Datatypes.S (Datatypes.S (length f)))
      (fun '(f, _, stop) => Ok (negb stop))
      (fun '(f, out, _) =>
         match fread1 RI None f with
         | (O, _, f) => Ok (f, out, true)
         | (_, n, f) => n ← use n; Ok (f, out ++ print_12 n ++ [10], false)
         end) (f, [], false);
    Ok out.

  (** main (lines 13-96) after the name of the program: the exit code and the text printed.
      strncmp with the length of the word and its end compares whole words.  A file that
      cannot be opened is reported and then read all the same, through a null pointer. *)
  Definition pprint (args : list bytes) (F : fs) : outcome (Z * bytes) :=
    match args with
    | [] => Ok (1%Z, [])
    | name :: rest =>
        let is_mode (m : bytes) := match rest with [a] => str_eqb a m | _ => false end in
        let file := F !! name in
        let notice := if is_mode (str "blocks") then [] else str "Assuming input is in blocked format." ++ [10] in
        match file with
        | None => Undef BadFree
        | Some f =>
            out ← (if is_mode (str "triples") then pprint_triples f
                   else if is_mode (str "vector") then pprint_vector f
                   else pprint_blocks f notice);
            Ok (0%Z, out)
        end
    end.
End Pprint.
