(** Text.v: text files and the C library functions that read them: fgets, strcmp, the
    conversions %s, %d, %lu of scanf, and %d, %lu of printf.

    A text is its list of character codes.  The C library is not part of /repo: these
    definitions follow the C standard (C17 7.21.6.1, 7.21.6.2, 7.21.7.2, 7.24.4).
    Simplified: locale "C"; characters above 127 are neither spaces nor letters. *)
From Verif Require Export Io.
From Coq Require String Ascii.
Export String.StringSyntax Ascii.AsciiSyntax.
Notation string := String.string. Notation ascii := Ascii.ascii.

(** character codes of a literal *)
Fixpoint str (s : string) : bytes :=
  match s with String.EmptyString => [] | String.String a s' => Ascii.nat_of_ascii a :: str s' end.

Arguments str _%string_scope.

(** isspace *)
Definition is_space (c : nat) : bool := (c =? 32) || ((9 <=? c) && (c <=? 13)).
(** isdigit *)
Definition is_digit (c : nat) : bool := (48 <=? c) && (c <=? 57).
(** tolower *)
Definition lower_char (c : nat) : nat := if (65 <=? c) && (c <=? 90) then c + 32 else c.
Definition lower (s : bytes) : bytes := lower_char <$> s.
(** strcmp(a, b) == 0 *)
Definition str_eqb (a b : bytes) : bool := if decide (a = b) then true else false.
(** strncmp(a, b, strlen(b)) == 0 *)
Definition has_prefix (b a : bytes) : bool := str_eqb (take (length b) a) b.

(** a directive of white space *)
Fixpoint skip_space (s : bytes) : bytes :=
  match s with c :: s' => if is_space c then skip_space s' else s | [] => [] end.
(** the longest prefix whose characters satisfy p, and the rest *)
Fixpoint span (p : nat -> bool) (s : bytes) : bytes * bytes :=
  match s with
  | c :: s' => if p c then let '(a, r) := span p s' in (c :: a, r) else ([], s)
  | [] => ([], [])
  end.
(** what a C string function sees of a buffer: up to the first zero character *)
Definition c_string (s : bytes) : bytes := (span (fun c => negb (c =? 0)) s).1.

(** fgets(line, n, f): the characters stored and the rest of the file; None: end of file *)
Fixpoint line_of (n : nat) (f : bytes) : bytes * bytes :=
  match n, f with
  | S n', c :: f' => if c =? 10 then ([c], f') else let '(l, r) := line_of n' f' in (c :: l, r)
  | _, _ => ([], f)
  end.
Definition fgets (n : nat) (f : bytes) : option (bytes * bytes) :=
  match f with [] => None | _ => Some (line_of (n - 1) f) end.

(** the value of a digit sequence, most significant digit first *)
Definition dec_val (l : bytes) : N := fold_left (fun a c => 10 * a + N.of_nat (c - 48))%N l 0%N.
(** the decimal digits of n *)
Fixpoint dec_fuel (fuel : nat) (n : N) : bytes :=
  match fuel with
  | O => []
  | S f => (if (n <? 10)%N then [] else dec_fuel f (n / 10)) ++ [48 + N.to_nat (n mod 10)]
  end.
(** %lu of printf *)
Definition print_dec (n : N) : bytes := dec_fuel (S (N.size_nat n)) n.
(** %d of printf *)
Definition print_int (z : Z) : bytes := if (z <? 0)%Z then 45 :: print_dec (Z.to_N (- z)) else print_dec (Z.to_N z).

(** sign and digits of %d and %lu; the input starts with the first character that is no
    space.  None: no digit (the sign is consumed) *)
Definition scan_digits (s : bytes) : option (bool * N) * bytes :=
  let '(neg, s) := match s with c :: s' => if c =? 45 then (true, s') else if c =? 43 then (false, s') else (false, s) | [] => (false, s) end in
  let '(d, r) := span is_digit s in
  match d with [] => (None, r) | _ => (Some (neg, dec_val d), r) end.

(** the outcome of one conversion: end of the input, no match, or a value; and the rest *)
Inductive scanned (A : Type) := AtEnd | NoMatch | Got (a : A).
Arguments AtEnd {A}. Arguments NoMatch {A}. Arguments Got {A}.
(** unsigned long has 64 bits, int 32 *)
Definition ulong_max : N := (2 ^ 64 - 1)%N.
Definition int_max : Z := (2 ^ 31 - 1)%Z.
(** %lu: a negative number is converted to unsigned; one too large has no defined result *)
Definition scan_lu (s : bytes) : outcome (scanned N * bytes) :=
  match skip_space s with
  | [] => Ok (AtEnd, [])
  | s' => match scan_digits s' with
          | (None, r) => Ok (NoMatch, r)
          | (Some (neg, n), r) =>
              if (ulong_max <? n)%N then Undef Overflow
              else Ok (Got (if neg then ((ulong_max + 1 - n) mod (ulong_max + 1))%N else n), r)
          end
  end.
(** %d *)
Definition scan_d (s : bytes) : outcome (scanned Z * bytes) :=
  match skip_space s with
  | [] => Ok (AtEnd, [])
  | s' => match scan_digits s' with
          | (None, r) => Ok (NoMatch, r)
          | (Some (neg, n), r) =>
              let z := if neg then (- Z.of_N n)%Z else Z.of_N n in
              if (int_max <? z)%Z || (z <? - int_max - 1)%Z then Undef Overflow else Ok (Got z, r)
          end
  end.
(** %s into a buffer of size cap *)
Definition scan_s (cap : nat) (s : bytes) : outcome (scanned bytes * bytes) :=
  match skip_space s with
  | [] => Ok (AtEnd, [])
  | s' => let '(w, r) := span (fun c => negb (is_space c)) s' in
          if cap <=? length w then Undef BufferOverflow else Ok (Got w, r)
  end.
