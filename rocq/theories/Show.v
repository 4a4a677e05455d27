(** Show.v: model of the functions that print matrices for inspection: show for the COO
    formats (include/generic/coo.h:80-100), for Csr (include/matrix/csr.1.h:105-133) and for
    vectors (include/test/utils.h:22-27), and partition_dump (include/partition.h:47-64).
    The text written to standard output is a list of bytes.  Indices of 32 and of 64 bits
    are printed in decimal (an 8-bit one would be printed as a character: not modelled). *)
From Verif Require Export Csr Text Gsb.

Section Show.
  Context {T : Type} `{Widths}.
  (** what [std::cout << v] writes for a value *)
  Variable show_value : T -> bytes.
  (** [std::cout << n] for an index *)
  Definition show_index (n : nat) : bytes := print_dec (N.of_nat n).

  (** "Printing a matrix with more than 20 non-zeros is a bad idea.\n" (include/generic/coo.h:88) *)
  Definition nonzeros_warning : bytes :=
    [80;114;105;110;116;105;110;103;32;97;32;109;97;116;114;105;120;32;119;105;116;104;32;109;111;114;101;32;116;104;97;110;32;50;48;32;
     110;111;110;45;122;101;114;111;115;32;105;115;32;97;32;98;97;100;32;105;100;101;97;46;10].
  (** "Printing a matrix with more than 20 rows is a bad idea.\n" (include/matrix/csr.1.h:113) *)
  Definition rows_warning : bytes :=
    [80;114;105;110;116;105;110;103;32;97;32;109;97;116;114;105;120;32;119;105;116;104;32;109;111;114;101;32;116;104;97;110;32;50;48;32;
     114;111;119;115;32;105;115;32;97;32;98;97;100;32;105;100;101;97;46;10].

  (** show for Coo, Coo2 and Coo3 (include/generic/coo.h:83-100) *)
  Definition show_coo (B : coo T) : outcome bytes :=
    if 20 <? c_nnz B then Ok nonzeros_warning
    else
      out ← for_range 0 (c_nnz B) (fun i out =>
        e ← lget (c_elems B) i;
        Ok (out ++ [40] ++ show_index (row e) ++ [44; 32] ++ show_index (col e) ++ [44; 32] ++ show_value (val e) ++ [41] ++ [10])) [];
      Ok (out ++ [10]).

  (** show for Csr (include/matrix/csr.1.h:108-133) *)
  Definition show_csr (A : csr T) : outcome bytes :=
    if 20 <? csr_rows A then Ok rows_warning
    else
      for_range 0 (csr_rows A) (fun i out =>
        let out := out ++ show_index i ++ [58; 32] in
        row_start ← aget (csr_ptr A) i;
        next_row ← aget (csr_ptr A) (i + 1);
        out ← for_range row_start next_row (fun k out =>
          c ← aget (csr_ind A) k;
          v ← aget (csr_vals A) k;
          Ok (out ++ [40] ++ show_index c ++ [44] ++ show_value v ++ [41] ++ [9])) out;
        Ok (out ++ [10])) [].

  (** show for a vector (include/test/utils.h:22-27) *)
  Definition show_vector (x : arr T) (size : nat) : outcome bytes :=
    for_range 0 size (fun i out =>
      v ← aget x i;
      Ok (out ++ show_index i ++ [58; 32] ++ show_value v ++ [10])) [].

  (** partition_dump (include/partition.h:51-64); nchunks is chunks.size() - 1
      (include/partition.h:16) converted to IT *)
  Definition partition_dump (parts : list (list nat)) (blockrows : nat) : outcome bytes :=
    for_range 0 blockrows (fun br out =>
      chunks ← lget parts br;
      let out := out ++ show_index br ++ [44] ++ show_index (wrap (length chunks - 1)) ++ [58; 9] in
      out ← for_range 1 (length chunks) (fun i out =>
        a ← lget chunks i;
        b ← lget chunks (i - 1);
        Ok (out ++ show_index (wsub a b) ++ [32])) out;
      Ok (out ++ [10])) [].
End Show.
