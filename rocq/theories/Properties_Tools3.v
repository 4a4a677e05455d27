(** Properties_Tools3.v: C71-C73, the tools permute, convert and sort.  [items]: see
    Properties_Tools.v; [meant_reader], [file_elements]: see Properties_Tools2.v. *)
From Verif Require Import ToolsProof IoProof PermuteProof ParCells UtilsProof Properties_Utils Properties_Simple Properties_Permute Properties_Io Properties_BlockIo Properties_Mm Properties_Mm2 Properties_Tools Properties_Tools2.
From Coq Require Import ZifyNat ZifyBool.

(** ** C71 *)
(** the indices are replaced by what the permutation has in their place *)
Definition mapped (p l l' : list nat) : Prop := Forall2 (fun i j => p !! i = Some j) l l'.
(** a name that the buffer can hold with the suffix .permuted *)
Definition short_name (s : bytes) : Prop := no_zero s /\ length s <= 117.

Lemma mapped_exists (p l : list nat) n : p ≡ₚ seq 0 n -> Forall (fun i => i < n) l -> exists l', mapped p l l' /\ Forall (fun i => i < n) l'.
Proof.
  intros Hp. induction 1 as [|i l Hi Hl (l' & IH & Hb)]; [exists []; split; constructor|].
  destruct (perm_lookup p n i Hp Hi) as (v & Hv & Hvn). exists (v :: l'). by split; constructor.
Qed.
Lemma mapped_unique (p l l1 l2 : list nat) : mapped p l l1 -> mapped p l l2 -> l1 = l2.
Proof. intros Hm. revert l2. induction Hm as [|i j l l' Hi _ IH]; intros l2 H2; inversion H2; subst; [done|]. f_equal; [congruence|auto]. Qed.
Lemma permute_file_spec `{Widths} (k : nat) (name : bytes) (p : list nat) (F : fs) (buf : arr nat) (f : bytes) (l' : list nat) :
  index_bytes k -> short_name name -> length buf = 128 -> F !! name = Some f ->
  mapped p (items (index_repr k) f) l' -> length (items (index_repr k) f) < itW ->
  exists buf', permute_file k name p F buf = Ok (inl (<[name ++ str ".permuted" := fwrite (index_repr k) l']> F, buf')) /\ length buf' = 128.
Proof.
  intros Hk [Hz Hlen] Hb Hf Hm Hsm. pose proof Hk as [Hk0 HW].
  destruct (output_name_spec buf name (str ".permuted") 118) as (buf' & Ho & Hb'); [done|by apply no_zero_str|lia|lia|cbn; lia|].
  exists buf'. unfold permute_file. rewrite Hf, read_array_items by done. cbn [mbind outcome_bind Z.ltb Z.compare].
  rewrite whole_full. cbn [mbind outcome_bind]. rewrite wrap_small by done. pose proof (Forall2_length _ _ _ Hm) as Hll.
  rewrite (par_do_spec _ _ l' tt).
  2: by rewrite <- Hll.
  2:{ apply settles_all, permute_array_settles; [by rewrite <- Hll|]. intros i v w Hv Hw. by eapply Forall2_lookup_lr in Hm. }
  cbn [mbind outcome_bind]. rewrite Ho. cbn [mbind outcome_bind]. rewrite write_bin_array_full by lia. rewrite firstn_all2 by lia. cbn [mbind outcome_bind].
  split; [done|lia].
Qed.

Section C71.
  Context `{Widths} (k : nat).
  Notation RI := (index_repr k).
  (** the arguments: three files, the last one a permutation of 0 .. n-1, the others indices below n *)
  Definition permute_input (rows cols perm : bytes) (F : fs) (n : nat) (fr fc fp : bytes) : Prop :=
    short_name rows /\ short_name cols /\ rows <> cols ++ str ".permuted" /\
    F !! rows = Some fr /\ F !! cols = Some fc /\ F !! perm = Some fp /\
    items RI fp ≡ₚ seq 0 n /\ n < itW /\
    Forall (fun i => i < n) (items RI fr) /\ Forall (fun i => i < n) (items RI fc) /\
    length (items RI fr) < itW /\ length (items RI fc) < itW.
  (** what the tool leaves: the two files with each index mapped by p, nothing else changed *)
  Definition permute_output (rows cols : bytes) (F F' : fs) (p : list nat) (fr fc : bytes) : Prop :=
    (exists gr, F' !! (rows ++ str ".permuted") = Some gr /\ mapped p (items RI fr) (items RI gr)) /\
    (exists gc, F' !! (cols ++ str ".permuted") = Some gc /\ mapped p (items RI fc) (items RI gc)) /\
    forall name : bytes, name <> rows ++ str ".permuted" -> name <> cols ++ str ".permuted" -> F' !! name = F !! name.

  Lemma permute_files (rows cols perm : bytes) (F : fs) (n : nat) (fr fc fp : bytes) (p : list nat) :
    index_bytes k -> permute_input rows cols perm F n fr fc fp -> p ≡ₚ seq 0 n ->
    exists F1 F2 buf buf2, permute_file k cols p F (new_arr 128) = Ok (inl (F1, buf)) /\
      permute_file k rows p F1 buf = Ok (inl (F2, buf2)) /\ permute_output rows cols F F2 p fr fc.
  Proof.
    intros Hk (Hr & Hc & Hne & Fr & Fc & Fp & Hp & HnW & Hir & Hic & Hlr & Hlc) Hpp.
    destruct (mapped_exists p _ n Hpp Hir) as (lr & Hmr & Hbr). destruct (mapped_exists p _ n Hpp Hic) as (lc & Hmc & Hbc).
    destruct (permute_file_spec k cols p F (new_arr 128) fc lc Hk Hc) as (buf & H1 & Hb); [done..|].
    set (F1 := <[cols ++ str ".permuted" := fwrite RI lc]> F) in *.
    destruct (permute_file_spec k rows p F1 buf fr lr Hk Hr Hb) as (buf2 & H2 & Hb2); [unfold F1; rewrite lookup_insert_ne by done; done|done|done|].
    set (F2 := <[rows ++ str ".permuted" := fwrite RI lr]> F1) in *.
    exists F1, F2, buf, buf2. split; [done|]. split; [done|].
    assert (Hit : forall l : list nat, Forall (fun i => i < n) l -> items RI (fwrite RI l) = l).
    { intros l Hl. apply items_fwrite, (faithful_RI k Hk). intros v Hv. rewrite Forall_forall in Hl. specialize (Hl v Hv). lia. }
    split; [exists (fwrite RI lr); unfold F2; rewrite lookup_insert; split; [done|by rewrite Hit]|]. split.
    - exists (fwrite RI lc). rewrite Hit by done. split; [|done]. unfold F2. destruct (decide (rows = cols)) as [->|Hrc].
      + assert (fr = fc) as -> by congruence. rewrite (mapped_unique _ _ _ _ Hmr Hmc). by rewrite lookup_insert.
      + rewrite lookup_insert_ne; [by apply lookup_insert|]. intros Heq. by apply app_inv_tail in Heq.
    - intros name N1 N2. unfold F2, F1. by rewrite !lookup_insert_ne by done.
  Qed.

  (** compiled without INVPERM *)
  Theorem C71_permute (rows cols perm : bytes) (F : fs) (n : nat) (fr fc fp : bytes) (forgiving : bool) :
    index_bytes k -> permute_input rows cols perm F n fr fc fp ->
    exists F', permute_tool k false forgiving rows cols perm F = Ok (0%Z, F') /\ permute_output rows cols F F' (items RI fp) fr fc.
  Proof.
    intros Hk HI. pose proof HI as (Hr & Hc & Hne & Fr & Fc & Fp & Hp & HnW & Hir & Hic & Hlr & Hlc). pose proof Hk as [Hk0 _].
    destruct (permute_files rows cols perm F n fr fc fp (items RI fp) Hk HI Hp) as (F1 & F2 & buf & buf2 & H1 & H2 & H3).
    exists F2. split; [|done]. unfold permute_tool. rewrite Fp, read_array_items by done. cbn [mbind outcome_bind Z.ltb Z.compare].
    rewrite whole_full. cbn [mbind outcome_bind]. rewrite H1. cbn [mbind outcome_bind]. rewrite H2. done.
  Qed.
  (** compiled with INVPERM (as the Makefile does) every index is mapped by the inverse
      permutation, and then an array from new[] is given to free() *)
  Theorem C71_inverse (rows cols perm : bytes) (F : fs) (n : nat) (fr fc fp : bytes) :
    index_bytes k -> permute_input rows cols perm F n fr fc fp ->
    (exists F' q, permute_tool k true true rows cols perm F = Ok (0%Z, F') /\ permute_output rows cols F F' q fr fc /\
       q ≡ₚ seq 0 n /\ forall i j, q !! i = Some j <-> items RI fp !! j = Some i) /\
    permute_tool k true false rows cols perm F = Undef BadFree.
  Proof.
    intros Hk HI. pose proof HI as (Hr & Hc & Hne & Fr & Fc & Fp & Hp & HnW & Hir & Hic & Hlr & Hlc). pose proof Hk as [Hk0 _].
    assert (Hlen : length (items RI fp) = n) by (by rewrite Hp, seq_length).
    destruct (permute_files rows cols perm F n fr fc fp (inverse (items RI fp) n) Hk HI (inverse_perm _ _ Hp)) as (F1 & F2 & buf & buf2 & H1 & H2 & H3).
    assert (Hrun : forall fg, permute_tool k true fg rows cols perm F = if fg then Ok (0%Z, F2) else Undef BadFree).
    { intros fg. unfold permute_tool. rewrite Fp, read_array_items by done. cbn [mbind outcome_bind Z.ltb Z.compare].
      rewrite whole_full. cbn [mbind outcome_bind]. rewrite Hlen, wrap_small by done.
      rewrite (run_is_a_schedule _ _ _ _ (settles_all _ _ _ (invert_settles [false] _ _ Hp))). cbn [mbind outcome_bind].
      pose proof (read_back_heap_of [false] (inverse (items RI fp) n)) as Hrb. rewrite inverse_length in Hrb. rewrite Hrb. cbn [mbind outcome_bind].
      rewrite H1. cbn [mbind outcome_bind]. rewrite H2. by destruct fg. }
    split; [|apply (Hrun false)]. exists F2, (inverse (items RI fp) n). split; [apply (Hrun true)|]. split; [done|]. split; [by apply inverse_perm|].
    intros i j. split.
    - intros Hj. assert (Hi : i < n) by (apply lookup_lt_Some in Hj; by rewrite inverse_length in Hj).
      destruct (perm_onto _ _ _ Hp Hi) as (m & Hm & _). pose proof (inverse_lookup _ _ _ _ Hp Hm). congruence.
    - intros Hj. by apply inverse_lookup.
  Qed.
  (** a name too long for the buffer *)
  Theorem C71_long_name_refuted (rows cols perm : bytes) (F : fs) (n : nat) (fc fp : bytes) (invperm forgiving : bool) :
    index_bytes k -> no_zero cols -> 118 <= length cols -> F !! cols = Some fc -> F !! perm = Some fp ->
    items RI fp ≡ₚ seq 0 n -> n < itW -> Forall (fun i => i < n) (items RI fc) -> length (items RI fc) < itW ->
    permute_tool k invperm forgiving rows cols perm F = Undef Uninit.
  Proof.
    intros Hk Hz Hl Fc Fp Hp HnW Hic Hlc. pose proof Hk as [Hk0 _].
    assert (Hlen : length (items RI fp) = n) by (by rewrite Hp, seq_length).
    assert (G : forall p, p ≡ₚ seq 0 n -> permute_file k cols p F (new_arr 128) = Undef Uninit).
    { intros p Hpp. destruct (mapped_exists p _ n Hpp Hic) as (lc & Hmc & Hbc). pose proof (Forall2_length _ _ _ Hmc) as Hll.
      unfold permute_file. rewrite Fc, read_array_items by done. cbn [mbind outcome_bind Z.ltb Z.compare]. rewrite whole_full. cbn [mbind outcome_bind].
      rewrite wrap_small by done. rewrite (par_do_spec _ _ lc tt).
      2: by rewrite <- Hll.
      2:{ apply settles_all, permute_array_settles; [by rewrite <- Hll|]. intros i v w Hv Hw. by eapply Forall2_lookup_lr in Hmc. }
      cbn [mbind outcome_bind]. by rewrite output_name_long by (done || lia). }
    unfold permute_tool. rewrite Fp, read_array_items by done. cbn [mbind outcome_bind Z.ltb Z.compare]. rewrite whole_full. cbn [mbind outcome_bind].
    destruct invperm; cbn [mbind outcome_bind].
    - rewrite Hlen, wrap_small by done.
      rewrite (run_is_a_schedule _ _ _ _ (settles_all _ _ _ (invert_settles [false] _ _ Hp))). cbn [mbind outcome_bind].
      pose proof (read_back_heap_of [false] (inverse (items RI fp) n)) as Hrb. rewrite inverse_length in Hrb. rewrite Hrb. cbn [mbind outcome_bind].
      by rewrite G by (by apply inverse_perm).
    - by rewrite G.
  Qed.
End C71.

(** ** C72 *)
Definition sorted_by_column {T} (E E' : list (elem T)) : Prop := sorts_stably col_major_le (fun a b => (row a =? row b) && (col a =? col b)) E E'.
Definition sorted_by_row {T} (E E' : list (elem T)) : Prop := sorts_stably row_major_le (fun a b => (row a =? row b) && (col a =? col b)) E E'.
Lemma fits_perm `{Widths} {T} (d1 d2 : nat) (E E' : list (elem T)) : E' ≡ₚ E -> fits (Coo d1 d2 E) -> fits (Coo d1 d2 E').
Proof. intros Hp (H1 & H2 & H3 & H4). unfold fits, c_nnz in *. cbn [c_rows c_cols c_elems] in *. rewrite Hp. done. Qed.
Lemma mm_fits_perm `{Widths} {T} (d1 d2 : nat) (E E' : list (elem T)) : E' ≡ₚ E -> mm_fits (Coo d1 d2 E) -> mm_fits (Coo d1 d2 E').
Proof. intros Hp (H1 & H2 & H3 & H4). unfold mm_fits, c_nnz in *. cbn [c_rows c_cols c_elems] in *. rewrite Hp. done. Qed.

Section C72.
  Context {T : Type} `{Widths} (RT : repr T) (k : nat) (scan_g : bytes -> option T * bytes) (print_f : T -> bytes).
  Notation RI := (index_repr k).
  (** as written the tool never gets past reading *)
  Theorem C72_as_written_refuted (forgiving : bool) (counter0 : option nat) (rows cols vals out mode : bytes) (F : fs) (fr fc fv : bytes) :
    0 < sz RT -> F !! rows = Some fr -> F !! cols = Some fc -> F !! vals = Some fv ->
    mode ∈ [str "bin"; str "mtx"; str "all"] ->
    exists u, convert RT k print_f (read_bin_COO3_generic RT k forgiving counter0) rows cols vals out mode F = Undef u.
  Proof.
    intros Hs H1 H2 H3 Hm. unfold convert.
    assert (negb ((str_eqb mode (str "bin") || str_eqb mode (str "all")) || (str_eqb mode (str "mtx") || str_eqb mode (str "all"))) = false) as ->.
    { rewrite !elem_of_cons, elem_of_nil in Hm. by destruct Hm as [->|[->|[->|[]]]]. }
    rewrite H1, H2, H3. destruct (C54_generic_refuted RT k forgiving counter0 fr fc fv Hs) as [u ->]. by exists u.
  Qed.
  (** any other mode is refused *)
  Theorem C72_unknown_mode (reader : option bytes -> option bytes -> option bytes -> outcome (Z * option (rawcoo T))) (rows cols vals out mode : bytes) (F : fs) :
    mode ∉ [str "bin"; str "mtx"; str "all"] -> convert RT k print_f reader rows cols vals out mode F = Ok (1%Z, F).
  Proof.
    intros Hm. rewrite !not_elem_of_cons in Hm. destruct Hm as (M1 & M2 & M3 & _). unfold convert.
    assert (G : forall s t : bytes, s <> t -> str_eqb s t = false).
    { intros s t Hne. destruct (str_eqb s t) eqn:E; [|done]. by apply str_eqb_spec in E. }
    by rewrite !G.
  Qed.
  (** with the reader it was meant to have: the elements of the three files, sorted by column,
      are what the readers of the written formats get *)
  Theorem C72_convert (rows cols vals out mode : bytes) (F : fs) (fr fc fv : bytes) (d1 d2 fuel : nat) (reread : T -> T) :
    index_bytes k -> storable RT -> (int_max < Z.of_nat itW)%Z -> rereads scan_g print_f reread ->
    F !! rows = Some fr -> F !! cols = Some fc -> F !! vals = Some fv ->
    mode ∈ [str "bin"; str "mtx"; str "all"] -> short_name out ->
    let E := file_elements RT k fr fc fv in
    fits (Coo d1 d2 E) -> mm_fits (Coo d1 d2 E) ->
    exists F' E', convert RT k print_f (meant_reader RT k d1 d2) rows cols vals out mode F = Ok (0%Z, F') /\
      sorted_by_column E E' /\
      (mode <> str "mtx" -> exists f, F' !! (out ++ str ".bin") = Some f /\ read_bin_COO RT k (Some f) = Ok (0%Z, Some (raw_of (Coo d1 d2 E')))) /\
      (mode <> str "bin" -> exists f, F' !! (out ++ str ".mtx") = Some f /\
         read_mm_COO scan_g fuel (Some f) = Ok (0%Z, Some (raw_of (reread_coo reread (Coo d1 d2 E'))))) /\
      (forall name : bytes, ~ (mode <> str "mtx" /\ name = out ++ str ".bin") -> ~ (mode <> str "bin" /\ name = out ++ str ".mtx") -> F' !! name = F !! name).
  Proof.
    intros Hk HR HW Hre H1 H2 H3 Hm [Hz Hlen] E Hf Hmf.
    destruct (C11_sort_triplets false E) as (E' & HE & Hs). pose proof Hs as (_ & Hp & _).
    pose proof (fits_perm d1 d2 E E' Hp Hf) as Hf'. pose proof (mm_fits_perm d1 d2 E E' Hp Hmf) as Hmf'.
    destruct (C63_roundtrip scan_g print_f fuel reread (Coo d1 d2 E') HW Hmf' Hre) as (fm & Hfm & Hrm).
    pose proof (C51_bin_roundtrip RT k (Coo d1 d2 E') Hk HR Hf') as Hrb.
    assert (Hn1 : exists buf', output_name (new_arr 128) out 118 (str ".mtx") = Ok (buf', out ++ str ".mtx") /\ length buf' = 128).
    { destruct (output_name_spec (new_arr 128) out (str ".mtx") 118) as (buf' & Ho & Hb'); [done|by apply no_zero_str|lia|cbn; lia|cbn; lia|]. exists buf'. first [exact Ho | split; [exact Ho|exact Hb']]. }
    assert (Hn2 : forall buf : arr nat, length buf = 128 -> exists buf', output_name buf out 118 (str ".bin") = Ok (buf', out ++ str ".bin")).
    { intros buf Hb. destruct (output_name_spec buf out (str ".bin") 118) as (buf' & Ho & Hb'); [done|by apply no_zero_str|lia|cbn; lia|cbn; lia|]. exists buf'. first [exact Ho | split; [exact Ho|exact Hb']]. }
    destruct Hn1 as (b1 & Hb1 & Hl1). destruct (Hn2 b1 Hl1) as (b2 & Hb2). destruct (Hn2 (new_arr 128) eq_refl) as (b3 & Hb3).
    assert (Hdiff : out ++ str ".bin" <> out ++ str ".mtx") by (intros Heq; apply app_inv_head in Heq; by vm_compute in Heq).
    assert (Hrun : forall m : bytes, m ∈ [str "bin"; str "mtx"; str "all"] -> convert RT k print_f (meant_reader RT k d1 d2) rows cols vals out m F =
      Ok (0%Z, (if str_eqb m (str "mtx") then id else <[out ++ str ".bin" := write_bin_COO RT k (Coo d1 d2 E')]>)
                 ((if str_eqb m (str "bin") then id else <[out ++ str ".mtx" := fm]>) F))).
    { intros m Hmm. unfold convert. rewrite !elem_of_cons, elem_of_nil in Hmm. rewrite H1, H2, H3.
      destruct Hmm as [->|[->|[->|[]]]].
      - change (str_eqb (str "bin") (str "bin")) with true. change (str_eqb (str "bin") (str "mtx")) with false. change (str_eqb (str "bin") (str "all")) with false.
        cbn [orb negb meant_reader mbind outcome_bind Z.ltb Z.compare use]. rewrite coo_of_meant. cbn [mbind outcome_bind c_rows c_cols c_elems]. fold E. rewrite HE. cbn [mbind outcome_bind].
        rewrite Hb3. done.
      - change (str_eqb (str "mtx") (str "bin")) with false. change (str_eqb (str "mtx") (str "mtx")) with true. change (str_eqb (str "mtx") (str "all")) with false.
        cbn [orb negb meant_reader mbind outcome_bind Z.ltb Z.compare use]. rewrite coo_of_meant. cbn [mbind outcome_bind c_rows c_cols c_elems]. fold E. rewrite HE. cbn [mbind outcome_bind].
        rewrite Hb1. cbn [mbind outcome_bind]. rewrite Hfm. done.
      - change (str_eqb (str "all") (str "bin")) with false. change (str_eqb (str "all") (str "mtx")) with false. change (str_eqb (str "all") (str "all")) with true.
        cbn [orb negb meant_reader mbind outcome_bind Z.ltb Z.compare use]. rewrite coo_of_meant. cbn [mbind outcome_bind c_rows c_cols c_elems]. fold E. rewrite HE. cbn [mbind outcome_bind].
        rewrite Hb1. cbn [mbind outcome_bind]. rewrite Hfm. cbn [mbind outcome_bind]. rewrite Hb2. done. }
    specialize (Hrun mode Hm). eexists _, E'. split; [exact Hrun|]. split; [done|].
    assert (Heqb : forall s t : bytes, str_eqb s t = bool_decide (s = t)).
    { intros s t. apply eq_bool_prop_intro. rewrite bool_decide_spec. split; [intros X; apply str_eqb_spec; by apply Is_true_true|intros X; by apply Is_true_true, str_eqb_spec]. }
    rewrite !Heqb. split; [|split].
    - intros M. rewrite (bool_decide_false _ M). exists (write_bin_COO RT k (Coo d1 d2 E')). split; [apply lookup_insert|exact Hrb].
    - intros M. rewrite (bool_decide_false _ M). exists fm. split; [|exact Hrm]. case_bool_decide; [apply lookup_insert|]. rewrite lookup_insert_ne by exact Hdiff. apply lookup_insert.
    - intros name N1 N2. case_bool_decide as M1; case_bool_decide as M2; unfold id; repeat first [reflexivity|rewrite lookup_insert_ne by (intros <-; tauto)].
  Qed.
End C72.

(** ** C73 *)
(** the arrays filled by a reader begin with the elements of B *)
Definition holds {T} (A : rawcoo T) (B : coo T) : Prop :=
  Io.r_rows A = c_rows B /\ Io.r_cols A = c_cols B /\ Io.r_nnz A = c_nnz B /\
  take (c_nnz B) (Io.r_row A) = full (row <$> c_elems B) /\ take (c_nnz B) (Io.r_col A) = full (col <$> c_elems B) /\
  take (c_nnz B) (Io.r_val A) = full (val <$> c_elems B) /\ Forall (fun e => blk e = 0) (c_elems B).
Lemma holds_coo {T} (A : rawcoo T) (B : coo T) : holds A B ->
  coo_of_raw (RawCoo (Io.r_rows A) (Io.r_cols A) (Io.r_nnz A) (take (Io.r_nnz A) (Io.r_row A)) (take (Io.r_nnz A) (Io.r_col A)) (take (Io.r_nnz A) (Io.r_val A))) = Ok B.
Proof.
  intros (H1 & H2 & H3 & H4 & H5 & H6 & H7). unfold coo_of_raw. cbn [Io.r_row Io.r_col Io.r_val Io.r_rows Io.r_cols].
  rewrite H3, H4, H5, H6, !whole_full. cbn [mbind outcome_bind]. rewrite H1, H2. destruct B as [r c E]. cbn [c_rows c_cols c_elems] in *. do 2 f_equal.
  clear -H7. induction H7 as [|[a b v e] E He _ IH]; [done|]. cbn in *. by rewrite IH, He.
Qed.
Lemma sort_by_sizes_oob {T} `{Widths} (E : list (elem T)) (sizes : list nat) (coff : arr nat) (nbc : nat) : sizes <> [] ->
  sort_triplets_blocks E (full sizes) (length sizes) coff nbc = Undef OutOfBounds.
Proof.
  intros Hne. set (nbr := length sizes). assert (Hnb : 0 < nbr) by (unfold nbr; destruct sizes; [done|cbn; lia]). unfold sort_triplets_blocks.
  rewrite (psort_isort true (fun first last : elem T => row first <? row last)).
  2:{ apply (swo_bykey row). }
  cbn [mbind outcome_bind]. set (l := isort _ E). clearbody l. rewrite aset_ok by (unfold new_arr; rewrite replicate_length; lia). cbn [mbind outcome_bind].
  set (bp := <[_ := _]> _). assert (Hbp : length bp = nbr + 1) by (unfold bp, new_arr; by rewrite insert_length, replicate_length). clearbody bp.
  match goal with |- (for_range 0 nbr ?b _ ≫= _) = _ => set (body := b) end.
  assert (Hgen : forall m lo st, lo + m = nbr -> 0 < m -> length st.1 = nbr + 1 -> st.2 <= length l ->
            for_n m lo body st = Undef OutOfBounds).
  { induction m as [|m IH]; intros lo [bp' i] Hlo Hm Hlen Hi; [lia|]. cbn [for_n]. cbn [fst snd] in Hlen, Hi.
    unfold body at 2. cbv beta iota. destruct (decide (m = 0)) as [->|Hm0].
    - assert (Hoob : aget (full sizes) (lo + 1) = Undef OutOfBounds).
      { unfold aget. rewrite lookup_ge_None_2; [done|]. rewrite full_length. unfold nbr in Hlo. lia. }
      assert (Hc : (e ← lget l i; o ← aget (full sizes) (lo + 1); Ok (row e <? o)) = Undef OutOfBounds).
      { unfold lget. destruct (l !! i); [cbn [mbind outcome_bind]; by rewrite Hoob|done]. }
      cbn [while_]. rewrite Hc. done.
    - destruct (lookup_lt_is_Some_2 sizes (lo + 1)) as [o Ho]; [unfold nbr in Hlo; lia|].
      destruct (stb_scan l (full sizes) lo o (S (S (length l))) i) as [(i' & Hi' & ->)| ->]; [by rewrite aget_full, (lget_some _ _ _ Ho)|done|lia| |done].
      cbn [mbind outcome_bind]. rewrite aset_ok by lia. cbn [mbind outcome_bind]. apply IH; cbn [fst snd]; [lia|lia|by rewrite insert_length|done]. }
  assert (for_range 0 nbr body (bp, 0) = Undef OutOfBounds) as ->; [|done].
  unfold for_range. apply Hgen; cbn [fst snd]; try done; lia.
Qed.

Section C73.
  Context {T : Type} `{Widths} (RT : repr T) (k : nat) (scan_g : bytes -> option T * bytes) (print_f : T -> bytes).
  Notation RI := (index_repr k).
  (** a Matrix Market file that is read as B: the file written is read as B sorted by row,
      up to the text form of the values *)
  Theorem C73_text (reader : option bytes -> option bytes -> option bytes -> outcome (Z * option (rawcoo T))) (m : bytes) (F : fs) (A : rawcoo T) (B : coo T) (fuel : nat) (reread : T -> T) :
    (int_max < Z.of_nat itW)%Z -> rereads scan_g print_f reread -> short_name m ->
    read_mm_COO scan_g fuel (F !! m) = Ok (0%Z, Some A) -> holds A B -> mm_fits B ->
    exists F' f E', sort_tool RT k scan_g print_f reader fuel [m] F = Ok (0%Z, F') /\ sorted_by_row (c_elems B) E' /\
      F' !! (m ++ str ".sorted") = Some f /\
      read_mm_COO scan_g fuel (Some f) = Ok (0%Z, Some (raw_of (reread_coo reread (Coo (c_rows B) (c_cols B) E')))) /\
      forall name : bytes, name <> m ++ str ".sorted" -> F' !! name = F !! name.
  Proof.
    intros HW Hre [Hz Hlen] Hread HB Hmf. destruct (C11_sort_triplets true (c_elems B)) as (E' & HE & Hs). pose proof Hs as (_ & Hp & _).
    pose proof (mm_fits_perm (c_rows B) (c_cols B) (c_elems B) E' Hp ltac:(by destruct B)) as Hmf'.
    destruct (C63_roundtrip scan_g print_f fuel reread _ HW Hmf' Hre) as (f & Hf & Hr).
    destruct (output_name_spec (new_arr 128) m (str ".sorted") 118) as (buf' & Ho & Hb'); [done|by apply no_zero_str|lia|cbn; lia|cbn; lia|].
    exists (<[m ++ str ".sorted" := f]> F), f, E'. split.
    - unfold sort_tool. rewrite Hread. cbn [mbind outcome_bind Z.ltb Z.compare use]. rewrite (holds_coo A B HB). cbn [mbind outcome_bind].
      rewrite HE. cbn [mbind outcome_bind]. rewrite Ho. cbn [mbind outcome_bind]. rewrite Hf. done.
    - split; [done|]. rewrite lookup_insert. split; [done|]. split; [done|]. intros name Hne. by rewrite lookup_insert_ne by done.
  Qed.
  (** three files, with the reader the tool was meant to have *)
  Theorem C73_three_files (r c v : bytes) (F : fs) (fr fc fv : bytes) (d1 d2 fuel : nat) :
    index_bytes k -> storable RT -> F !! r = Some fr -> F !! c = Some fc -> F !! v = Some fv ->
    short_name r -> short_name c -> short_name v -> NoDup [r; c; v] ->
    let E := file_elements RT k fr fc fv in fits (Coo d1 d2 E) ->
    exists F' E' gr gc gv, sort_tool RT k scan_g print_f (meant_reader RT k d1 d2) fuel [r; c; v] F = Ok (0%Z, F') /\ sorted_by_row E E' /\
      F' !! (r ++ str ".sorted") = Some gr /\ F' !! (c ++ str ".sorted") = Some gc /\ F' !! (v ++ str ".sorted") = Some gv /\
      file_elements RT k gr gc gv = E' /\
      forall name : bytes, name ∉ [r ++ str ".sorted"; c ++ str ".sorted"; v ++ str ".sorted"] -> F' !! name = F !! name.
  Proof.
    intros Hk HR H1 H2 H3 [Z1 L1] [Z2 L2] [Z3 L3] Hnd E Hfit. destruct (C11_sort_triplets true E) as (E' & HE & Hs). pose proof Hs as (_ & Hp & _).
    pose proof (fits_perm d1 d2 E E' Hp Hfit) as (_ & _ & _ & Hfit'). cbn [c_elems] in Hfit'.
    assert (Hout : forall s : bytes, no_zero s -> length s <= 117 -> exists buf', output_name (new_arr 128) s 118 (str ".sorted") = Ok (buf', s ++ str ".sorted")).
    { intros s Hz Hl. destruct (output_name_spec (new_arr 128) s (str ".sorted") 118) as (buf' & Ho & _); [done|by apply no_zero_str|lia|cbn; lia|cbn; lia|]. exists buf'. first [exact Ho | split; [exact Ho|exact Hb']]. }
    destruct (Hout r Z1 L1) as [b1 O1]. destruct (Hout c Z2 L2) as [b2 O2]. destruct (Hout v Z3 L3) as [b3 O3].
    assert (Hsep : forall s t : bytes, s <> t -> s ++ str ".sorted" <> t ++ str ".sorted") by (intros s t Hne Heq; apply app_inv_tail in Heq; exact (Hne Heq)).
    rewrite !NoDup_cons, !elem_of_cons, elem_of_nil in Hnd. destruct Hnd as (N1 & N2 & _ & _).
    eexists _, E', (fwrite RI (row <$> E')), (fwrite RI (col <$> E')), (fwrite RT (val <$> E')).
    split; [unfold sort_tool; cbn [length Nat.leb mbind outcome_bind]; rewrite H1, H2, H3; cbn [meant_reader mbind outcome_bind Z.ltb Z.compare use orb]; rewrite coo_of_meant;
      cbn [mbind outcome_bind c_rows c_cols c_elems]; fold E; rewrite HE; cbn [mbind outcome_bind write_bin_COO3 c_elems]; rewrite O1, O2, O3; reflexivity|].
    split; [done|]. split; [rewrite !lookup_insert_ne by (apply Hsep; clear -N1 N2; naive_solver); apply lookup_insert|].
    split; [rewrite lookup_insert_ne by (apply Hsep; clear -N1 N2; naive_solver); apply lookup_insert|]. split; [apply lookup_insert|]. split.
    - assert (Hblk : Forall (fun e => blk e = 0) E').
      { rewrite Hp. unfold E, file_elements. apply Forall_fmap, Forall_forall. by intros [a [b w]] _. }
      unfold file_elements. rewrite !items_fwrite.
      + clear -Hblk. induction Hblk as [|[a b w e] E' He _ IH]; [done|]. cbn in *. by rewrite IH, He.
      + split; [apply HR|]. intros w _. apply HR.
      + apply (faithful_RI k Hk). intros w Hw. apply elem_of_list_fmap in Hw as (e & -> & He). rewrite Forall_forall in Hfit'. by apply Hfit'.
      + apply (faithful_RI k Hk). intros w Hw. apply elem_of_list_fmap in Hw as (e & -> & He). rewrite Forall_forall in Hfit'. by apply Hfit'.
    - intros name Hn. rewrite !not_elem_of_cons in Hn. destruct Hn as (A1 & A2 & A3 & _). by rewrite !lookup_insert_ne by done.
  Qed.
  (** two arguments: argv[4] is used, which is beyond the end of argv; as written three
      files are never read; and block sizes are used as if they were offsets *)
  Theorem C73_two_files_refuted (reader : option bytes -> option bytes -> option bytes -> outcome (Z * option (rawcoo T))) (a b : bytes) (F : fs) (fuel : nat) : sort_tool RT k scan_g print_f reader fuel [a; b] F = Undef OutOfBounds.
  Proof. done. Qed.
  Theorem C73_as_written_refuted (forgiving : bool) (counter0 : option nat) (r c v : bytes) (F : fs) (fr fc fv : bytes) (fuel : nat) :
    0 < sz RT -> F !! r = Some fr -> F !! c = Some fc -> F !! v = Some fv ->
    exists u, sort_tool RT k scan_g print_f (read_bin_COO3_generic RT k forgiving counter0) fuel [r; c; v] F = Undef u.
  Proof.
    intros Hs H1 H2 H3. unfold sort_tool. cbn [length Nat.leb mbind outcome_bind]. rewrite H1, H2, H3.
    destruct (C54_generic_refuted RT k forgiving counter0 fr fc fv Hs) as [u ->]. by exists u.
  Qed.
  Theorem C73_block_sizes_refuted (r c v s : bytes) (F : fs) (fr fc fv fz : bytes) (d1 d2 fuel : nat) :
    0 < k -> F !! r = Some fr -> F !! c = Some fc -> F !! v = Some fv -> F !! s = Some fz ->
    items RI fz <> [] -> length (items RI fz) < itW ->
    sort_tool RT k scan_g print_f (meant_reader RT k d1 d2) fuel [r; c; v; s] F = Undef OutOfBounds.
  Proof.
    intros Hk H1 H2 H3 H4 Hne Hlt. unfold sort_tool. cbn [length Nat.leb]. rewrite H4, read_array_items by done. cbn [mbind outcome_bind]. rewrite H1, H2, H3.
    cbn [meant_reader mbind outcome_bind Z.ltb Z.compare use orb]. rewrite coo_of_meant. cbn [mbind outcome_bind c_rows c_cols c_elems]. rewrite wrap_small by done.
    by rewrite sort_by_sizes_oob.
  Qed.
End C73.

(** ** Examples *)
Definition ex_fs71 : fs := <[str "r" := [0; 2; 1; 2]]> (<[str "c" := [1; 1; 0; 2]]> {[str "p" := [2; 0; 1]]}).
Lemma ex_perm3 : [2; 0; 1] ≡ₚ seq 0 3.
Proof.
  apply perm_of_nodup; [done| |].
  - repeat (constructor; [rewrite ?elem_of_cons, elem_of_nil; lia|]). constructor.
  - intros v. rewrite !elem_of_cons, elem_of_nil. lia.
Qed.
Example C71_ex :
  @index_bytes ex_W8 1 /\ @permute_input ex_W8 1 (str "r") (str "c") (str "p") ex_fs71 3 [0; 2; 1; 2] [1; 1; 0; 2] [2; 0; 1] /\
  match @permute_tool ex_W8 1 false false (str "r") (str "c") (str "p") ex_fs71 with
  | Ok (code, F') => code = 0%Z /\ F' !! str "r.permuted" = Some [2; 1; 0; 1] /\ F' !! str "c.permuted" = Some [0; 0; 2; 1]
  | _ => False
  end /\
  match @permute_tool ex_W8 1 true true (str "r") (str "c") (str "p") ex_fs71 with
  | Ok (code, F') => code = 0%Z /\ F' !! str "r.permuted" = Some [1; 0; 2; 0]
  | _ => False
  end.
Proof.
  split; [split; [lia|done]|]. split.
  - assert (Hn : forall s : bytes, forallb (fun c => negb (c =? 0)) s = true -> length s <=? 117 = true -> short_name s).
    { intros s H1 H2. split; [by apply no_zero_str|]. by apply Nat.leb_le. }
    unfold permute_input. split; [by apply Hn|]. split; [by apply Hn|]. split; [intros Heq; apply (f_equal length) in Heq; cbn in Heq; lia|].
    split; [vm_compute; reflexivity|]. split; [vm_compute; reflexivity|]. split; [vm_compute; reflexivity|].
    split; [exact ex_perm3|]. split; [cbn; lia|]. cbn. repeat split; try lia; repeat constructor; lia.
  - split; vm_compute; repeat split; reflexivity.
Qed.
(** a name of 118 characters *)
Example C71_long_name_ex :
  let cols := replicate 118 97 in no_zero cols /\ 118 <= length cols /\
  @permute_tool ex_W8 1 false false (str "r") cols (str "p") (<[cols := [1; 1]]> ex_fs71) = Undef Uninit.
Proof. cbv zeta. split; [by apply no_zero_str|]. split; [by rewrite replicate_length|]. vm_compute. reflexivity. Qed.

Lemma ex_short_name (s : bytes) : forallb (fun c => negb (c =? 0)) s = true -> length s <=? 117 = true -> short_name s.
Proof. intros H1 H2. split; [by apply no_zero_str|]. by apply Nat.leb_le. Qed.
(** four-byte indices *)
Definition ex_W4 : Widths := {| itW := 256 ^ 4; sitW := 256 |}.
Definition four (l : list nat) : bytes := concat ((fun n => [n; 0; 0; 0]) <$> l).
Definition ex_fs72 : fs := <[str "r" := four [2; 0; 2]]> (<[str "c" := four [3; 1; 0]]> {[str "v" := [57; 0; 12; 0; 30; 0]]}).
Lemma ex_W4_int : (int_max < Z.of_nat (@itW ex_W4))%Z.
Proof. unfold int_max, itW, ex_W4. rewrite Nat2Z.inj_pow. lia. Qed.
Lemma ex_fits72 : @fits ex_W4 Z (Coo 3 4 [Elem 2 3 57%Z 0; Elem 0 1 12%Z 0; Elem 2 0 30%Z 0]) /\ @mm_fits Z ex_W4 (Coo 3 4 [Elem 2 3 57%Z 0; Elem 0 1 12%Z 0; Elem 2 0 30%Z 0]).
Proof.
  pose proof ex_W4_int as HW. unfold int_max in HW. assert (HW2 : 10 < @itW ex_W4) by lia. clear HW.
  unfold fits, mm_fits, c_nnz, int_max, ulong_max. cbn [c_rows c_cols c_elems length]. generalize dependent (@itW ex_W4). intros n Hn. repeat split; try lia; repeat constructor; cbn [row col]; lia.
Qed.
Example C72_ex :
  @index_bytes ex_W4 4 /\ storable ex_RZ /\ (int_max < Z.of_nat (@itW ex_W4))%Z /\ rereads toy_scan toy_print (fun z => z / 10)%Z /\
  str "all" ∈ [str "bin"; str "mtx"; str "all"] /\ short_name (str "out") /\
  file_elements ex_RZ 4 (four [2; 0; 2]) (four [3; 1; 0]) [57; 0; 12; 0; 30; 0] = [Elem 2 3 57%Z 0; Elem 0 1 12%Z 0; Elem 2 0 30%Z 0] /\
  @fits ex_W4 Z (Coo 3 4 [Elem 2 3 57%Z 0; Elem 0 1 12%Z 0; Elem 2 0 30%Z 0]) /\ @mm_fits Z ex_W4 (Coo 3 4 [Elem 2 3 57%Z 0; Elem 0 1 12%Z 0; Elem 2 0 30%Z 0]) /\
  ex_fs72 !! str "r" = Some (four [2; 0; 2]) /\ ex_fs72 !! str "c" = Some (four [3; 1; 0]) /\ ex_fs72 !! str "v" = Some [57; 0; 12; 0; 30; 0].
Proof.
  split; [split; [lia|unfold itW, ex_W4; exact eq_refl]|]. split; [exact ex_RZ_storable|]. split; [exact ex_W4_int|]. split; [exact toy_rereads|].
  split; [right; right; left|]. split; [by apply ex_short_name|]. split; [vm_compute; reflexivity|]. split; [apply ex_fits72|]. split; [apply ex_fits72|].
  split; [vm_compute; reflexivity|]. split; vm_compute; reflexivity.
Qed.
Example C72_ex_unknown : str "txt" ∉ [str "bin"; str "mtx"; str "all"].
Proof. rewrite !not_elem_of_cons. repeat split; try (by vm_compute); apply not_elem_of_nil. Qed.
(** the text file of C63_ex is read as a matrix that the sort tool can take *)
Example C73_ex : exists (f : bytes) (A : rawcoo Z) (B : coo Z), short_name (str "m.mtx") /\
  @read_mm_COO Z ex_W4 toy_scan 0 (({[str "m.mtx" := f]} : fs) !! str "m.mtx") = Ok (0%Z, Some A) /\ holds A B /\ @mm_fits Z ex_W4 B /\ c_nnz B = 3.
Proof.
  destruct (C63_roundtrip (H := ex_W4) toy_scan toy_print 0 (fun z => z / 10)%Z _ ex_W4_int (proj2 ex_fits72) toy_rereads) as (f & _ & Hf).
  exists f, (raw_of (Coo 3 4 [Elem 2 3 5%Z 0; Elem 0 1 1%Z 0; Elem 2 0 3%Z 0])), (Coo 3 4 [Elem 2 3 5%Z 0; Elem 0 1 1%Z 0; Elem 2 0 3%Z 0]).
  split; [by apply ex_short_name|]. split; [rewrite lookup_singleton; exact Hf|]. split; [repeat split; repeat constructor|]. split; [|done].
  pose proof ex_fits72 as [_ (M1 & M2 & M3 & M4)]. split; [exact M1|]. split; [exact M2|]. split; [exact M3|]. cbn [c_elems] in *.
  rewrite !Forall_cons in M4. rewrite !Forall_cons. cbn [row col] in *. tauto.
Qed.
Example C73_ex_three : NoDup [str "r"; str "c"; str "v"] /\ short_name (str "r") /\ short_name (str "c") /\ short_name (str "v").
Proof.
  split; [apply (bool_decide_unpack _); vm_compute; exact Logic.I|]. split; [by apply ex_short_name|]. split; by apply ex_short_name.
Qed.
