(** Properties_Simple.v: C15-C27 and C44, the unblocked formats.
    [all_schedules p h r h'] (Par.v): every interleaving of p's memory accesses from
    heap h ends, without undefined behaviour or data race, with result r in heap h'.
    [heap_of b y]: buffer b holds the vector y and nothing else is allocated. *)
From Verif Require Import DenseProof Properties_Utils.

Section C15_C27.
  Context {T : Type} `{Scalar T} `{Widths}.
  Implicit Types (B : coo T) (E : list (elem T)) (x y : list T) (b : buf).

  (** ** C15 *)
  Theorem C15_coo_spmv B x y b :
    in_range (c_rows B) (c_cols B) (c_elems B) -> c_cols B <= length x -> length y = c_rows B ->
    all_schedules (coo_spmv B x b) (heap_of b y) tt (heap_of b (spmv_in_order (c_elems B) x y)).
  Proof. apply coo_spmv_spec. Qed.
  Theorem C15_coo_spmv_exact B x y b (one : T) : exact_arith T one ->
    in_range (c_rows B) (c_cols B) (c_elems B) -> c_cols B <= length x -> length y = c_rows B ->
    all_schedules (coo_spmv B x b) (heap_of b y) tt (heap_of b (y_plus_Ax (c_elems B) (c_cols B) x y)).
  Proof.
    intros SR HB Hx Hy. rewrite <- (spmv_in_order_exact one SR (c_rows B)) by done. by apply coo_spmv_spec.
  Qed.
  Theorem C15_order_independent B B' x y b (one : T) : exact_arith T one ->
    in_range (c_rows B) (c_cols B) (c_elems B) -> c_cols B <= length x -> length y = c_rows B ->
    c_elems B' ≡ₚ c_elems B -> c_rows B' = c_rows B -> c_cols B' = c_cols B ->
    exists y', all_schedules (coo_spmv B x b) (heap_of b y) tt (heap_of b y') /\
               all_schedules (coo_spmv B' x b) (heap_of b y) tt (heap_of b y').
  Proof.
    intros SR HB Hx Hy Hp Hr Hc. exists (y_plus_Ax (c_elems B) (c_cols B) x y).
    split; [by eapply C15_coo_spmv_exact|].
    rewrite (y_plus_Ax_perm one SR (c_elems B) (c_elems B')) by done. rewrite <- Hc.
    eapply C15_coo_spmv_exact; rewrite ?Hr, ?Hc; try done. by eapply in_range_perm.
  Qed.
  (** the three-array layout, from the same elements *)
  Theorem C15_coo_three_arrays B x y b :
    in_range (c_rows B) (c_cols B) (c_elems B) -> c_cols B <= length x -> length y = c_rows B ->
    exists A, Coo_to_Coo (fun i => i) B = Ok (c_rows B, c_cols B, A) /\
      all_schedules (coo1_spmv A x 0 b 0) (heap_of b y) tt (heap_of b (spmv_in_order (c_elems B) x y)).
  Proof.
    intros HB Hx Hy. eexists. unfold Coo_to_Coo. rewrite copy_points_spec. cbn [mbind outcome_bind].
    split; [done|]. rewrite <- (drop_0 x) at 2. apply (performs_vector _ b y (fun _ => False)); [|by intros []].
    rewrite Hy. apply (performs_coo1_spmv (fun i => i) (c_elems B) (c_rows B) (c_cols B) x 0); [|done|done].
    by apply Forall_true.
  Qed.

  (** ** C16: [conv] is the identity for an index type of the same width, truncation
      for the short one *)
  Theorem C16_coo_to_coo (conv : nat -> nat) B :
    Forall (fun e => conv (row e) = row e /\ conv (col e) = col e) (c_elems B) ->
    exists A, Coo_to_Coo conv B = Ok (c_rows B, c_cols B, A) /\ k_nnz A = c_nnz B /\
      k_I A = full (row <$> c_elems B) /\ k_J A = full (col <$> c_elems B) /\ k_val A = full (val <$> c_elems B).
  Proof.
    intros Hc. unfold Coo_to_Coo. rewrite copy_points_spec. cbn [mbind outcome_bind]. eexists. split; [done|].
    rewrite Forall_forall in Hc.
    split; [done|]. split; [|split; [|done]]; cbn; f_equal; apply list_fmap_ext; intros i e He;
      apply elem_of_list_lookup_2 in He; by apply Hc.
  Qed.
  (** a narrower destination without room silently changes the index *)
  Theorem C16_truncation_refuted (v : T) : 0 < sitW ->
    exists B A, in_range (sitW + 1) 1 (c_elems B) /\ Coo_to_Coo swrap B = Ok (sitW + 1, 1, A) /\
      row <$> c_elems B = [sitW] /\ k_I A = full [0].
  Proof.
    intros Hs. exists (Coo (sitW + 1) 1 [Elem sitW 0 v 0]). eexists. unfold Coo_to_Coo. rewrite copy_points_spec.
    cbn [mbind outcome_bind]. split; [repeat constructor; simpl; lia|]. split; [done|]. split; [done|].
    cbn. do 3 f_equal. unfold swrap. apply Nat.mod_same. lia.
  Qed.

  (** ** C17 *)
  (** [A] stores, row by row, the elements of E: column index and value, by increasing
      column, repeated columns in their order in E *)
  Definition is_csr_of (A : csr T) (rows columns : nat) E : Prop :=
    exists (ptr ind : list nat) (vals : list T),
      csr_rows A = rows /\ csr_cols A = columns /\
      csr_ptr A = full ptr /\ csr_ind A = full ind /\ csr_vals A = full vals /\
      length ptr = rows + 1 /\ nth 0 ptr 0 = 0 /\ nth rows ptr 0 = length E /\
      (forall i, i < rows -> nth i ptr 0 <= nth (S i) ptr 0) /\
      length ind = length E /\ length vals = length E /\
      forall i, i < rows ->
        let n := nth (S i) ptr 0 - nth i ptr 0 in
        zip (slice (nth i ptr 0) n ind) (slice (nth i ptr 0) n vals) =
        (fun e => (col e, val e)) <$> isort (bykey col) (bfilter (in_row i) E).
  Lemma nth_ptrs K m j : j <= m -> nth j (ptrs K m) 0 = cntlt K j.
  Proof. intros Hj. apply nth_lookup_Some. by apply ptrs_lookup. Qed.
  Lemma fmap_slice {A C} (f : A -> C) s n (l : list A) : slice s n (f <$> l) = f <$> slice s n l.
  Proof. unfold slice. by rewrite <- fmap_drop, <- fmap_take. Qed.
  Lemma is_csr_of_sorted E rows columns : in_range rows columns E ->
    let E' := isort compare_row E in
    is_csr_of (Csr rows columns (full (ptrs (row <$> E') rows)) (full (col <$> E')) (full (val <$> E'))) rows columns E.
  Proof.
    intros HE E'. eexists _, _, _. do 5 (split; [done|]).
    assert (Hlen : length E' = length E) by apply isort_length.
    split; [rewrite ptrs_length; lia|]. split; [rewrite nth_ptrs by lia; apply cntlt_0|]. split.
    { rewrite nth_ptrs by lia. rewrite cntlt_all, fmap_length; [done|]. apply Forall_fmap.
      eapply Forall_impl; [eapply in_range_perm; [symmetry; apply isort_perm|exact HE]|]. by intros e [? _]. }
    split. { intros i Hi. rewrite !nth_ptrs by lia. apply cntlt_mono. lia. }
    split; [by rewrite fmap_length|]. split; [by rewrite fmap_length|].
    intros i Hi. cbv zeta. rewrite !nth_ptrs by lia. rewrite !fmap_slice.
    pose proof (sorted_slice row E' i (ksorted_isort_row E)) as Hs. rewrite !Hs.
    change (has row i) with (in_row (T := T) i). unfold E'. rewrite row_filter_isort.
    rewrite (filter_isort _ (swo_bykey col)). rewrite zip_with_fmap_l, zip_with_fmap_r.
    generalize (isort (bykey col) (bfilter (in_row i) E)). intros l. induction l as [|e l IH]; [done|]. cbn. by f_equal.
  Qed.
  Theorem C17_coo_to_csr B :
    in_range (c_rows B) (c_cols B) (c_elems B) -> c_rows B + 1 < itW -> c_nnz B < itW ->
    exists A B', Coo_to_Csr B = Ok (A, B') /\ is_csr_of A (c_rows B) (c_cols B) (c_elems B) /\
      csr_nonzeros A = Ok (c_nnz B) /\
      c_rows B' = c_rows B /\ c_cols B' = c_cols B /\ c_elems B' ≡ₚ c_elems B.
  Proof.
    intros HB Hr Hn. eexists _, _. split; [by apply Coo_to_Csr_spec|]. split; [by apply is_csr_of_sorted|].
    split. { unfold csr_nonzeros. cbn [csr_ptr csr_rows]. rewrite ptrs_get by lia. f_equal. rewrite cntlt_all, fmap_length.
      - apply isort_length.
      - apply Forall_fmap. eapply Forall_impl; [eapply in_range_perm; [symmetry; apply isort_perm|exact HB]|]. by intros e [? _]. }
    split; [done|]. split; [done|]. apply isort_perm.
  Qed.

  (** ** C18, C19 *)
  Theorem C19_csr_kernels_agree B x y b :
    in_range (c_rows B) (c_cols B) (c_elems B) -> c_rows B + 1 < itW -> c_nnz B < itW ->
    c_cols B <= length x -> length y = c_rows B ->
    exists A B', Coo_to_Csr B = Ok (A, B') /\
      let y' := spmv_by_column (c_elems B) x y in
      all_schedules (csr_spmv A x b) (heap_of b y) tt (heap_of b y') /\
      all_schedules (csr_spmv_serial A x b) (heap_of b y) tt (heap_of b y') /\
      all_schedules (csr2_spmv A x b) (heap_of b y) tt (heap_of b y') /\
      all_schedules (csr2_spmv_serial A x b) (heap_of b y) tt (heap_of b y').
  Proof.
    intros HB Hr Hn Hx Hy. eexists _, _. split; [by apply Coo_to_Csr_spec|]. cbv zeta.
    pose proof (Coo_to_Csr_spec B HB Hr Hn) as HA. cbv zeta in HA.
    split; [by eapply csr_spmv_spec|]. split; [by eapply csr_spmv_serial_spec|].
    split; [by eapply csr2_spmv_spec|by eapply csr2_spmv_serial_spec].
  Qed.
  Theorem C18_csr_spmv B x y b (one : T) : exact_arith T one ->
    in_range (c_rows B) (c_cols B) (c_elems B) -> c_rows B + 1 < itW -> c_nnz B < itW ->
    c_cols B <= length x -> length y = c_rows B ->
    exists A B', Coo_to_Csr B = Ok (A, B') /\
      all_schedules (csr_spmv A x b) (heap_of b y) tt (heap_of b (y_plus_Ax (c_elems B) (c_cols B) x y)).
  Proof.
    intros SR HB Hr Hn Hx Hy. destruct (C19_csr_kernels_agree B x y b HB Hr Hn Hx Hy) as (A & B' & HA & Hs & _).
    exists A, B'. split; [done|]. rewrite <- (spmv_by_column_exact one SR (c_rows B)) by done. exact Hs.
  Qed.

  (** ** C20, C21 *)
  Theorem C20_cswr_spmv B (w : nat) x y b :
    in_range (c_rows B) (c_cols B) (c_elems B) -> 0 < w -> w <= sitW -> c_rows B + w + 1 < itW -> c_nnz B < itW ->
    c_cols B <= length x -> length y = c_rows B ->
    exists A B', Coo_to_Cswr B w = Ok (A, B') /\
      all_schedules (cswr_spmv A x b) (heap_of b y) tt (heap_of b (spmv_by_column (c_elems B) x y)).
  Proof.
    intros HB Hw Hs Hr Hn Hx Hy. eexists _, _. split; [by apply Coo_to_Cswr_spec|].
    pose proof (Coo_to_Cswr_spec B w HB Hw Hr Hn) as HA. cbv zeta in HA. by eapply cswr_spmv_spec.
  Qed.
  Theorem C20_cswr_spmv_exact B (w : nat) x y b (one : T) : exact_arith T one ->
    in_range (c_rows B) (c_cols B) (c_elems B) -> 0 < w -> w <= sitW -> c_rows B + w + 1 < itW -> c_nnz B < itW ->
    c_cols B <= length x -> length y = c_rows B ->
    exists A B', Coo_to_Cswr B w = Ok (A, B') /\
      all_schedules (cswr_spmv A x b) (heap_of b y) tt (heap_of b (y_plus_Ax (c_elems B) (c_cols B) x y)).
  Proof.
    intros SR HB Hw Hs Hr Hn Hx Hy. rewrite <- (spmv_by_column_exact one SR (c_rows B)) by done. by apply C20_cswr_spmv.
  Qed.
  (** every positive width: the product is that of the matrix whose rows are cut, inside
      each wide row, to the short type *)
  Definition cut_rows (w : nat) E : list (elem T) :=
    (fun e => Elem (row e / w * w + (row e mod w) mod sitW) (col e) (val e) (blk e)) <$> E.
  Theorem C21_any_width B (w : nat) x y b :
    in_range (c_rows B) (c_cols B) (c_elems B) -> 0 < w -> sitW <> 0 -> c_rows B + w + 1 < itW -> c_nnz B < itW ->
    c_cols B <= length x -> length y = c_rows B ->
    exists A B' E', Coo_to_Cswr B w = Ok (A, B') /\ E' ≡ₚ c_elems B /\
      all_schedules (cswr_spmv A x b) (heap_of b y) tt (heap_of b (spmv_in_order (cut_rows w E') x y)).
  Proof.
    intros HB Hw Hs Hr Hn Hx Hy. pose proof (Coo_to_Cswr_spec B w HB Hw Hr Hn) as HA. cbv zeta in HA.
    eexists _, _, _. split; [exact HA|]. split; [apply isort_perm|].
    exact (cswr_spmv_any B w _ _ x y b HB Hw Hs Hr Hn HA Hx Hy).
  Qed.
  (** so with a width beyond the short range a contribution lands in another row: one
      element in row sitW is added to row 0 *)
  Theorem C21_too_wide_refuted (v a : T) b : 0 < sitW -> sitW + sitW + 3 < itW -> 1 < itW ->
    exists B A B', in_range (sitW + 1) 1 (c_elems B) /\ row <$> c_elems B = [sitW] /\
      Coo_to_Cswr B (sitW + 1) = Ok (A, B') /\
      all_schedules (cswr_spmv A [a] b) (heap_of b (replicate (sitW + 1) s0)) tt
        (heap_of b (sadd s0 (smul v a) :: replicate sitW s0)).
  Proof.
    intros Hs Hw1 Hw2. set (B := Coo (sitW + 1) 1 [Elem sitW 0 v 0]).
    assert (HB : in_range (sitW + 1) 1 (c_elems B)) by (repeat constructor; simpl; lia).
    destruct (C21_any_width B (sitW + 1) [a] (replicate (sitW + 1) s0) b) as (A & B' & E' & HA & HE & Hall);
      try done; try (cbn; lia); try (by rewrite replicate_length).
    apply Permutation_singleton_r in HE. subst E'. exists B, A, B'. split; [done|]. split; [done|]. split; [done|].
    assert (Heq : spmv_in_order (cut_rows (sitW + 1) [Elem sitW 0 v 0]) [a] (replicate (sitW + 1) s0) =
                  sadd s0 (smul v a) :: replicate sitW s0).
    { unfold cut_rows. cbn [fmap list_fmap row col val blk]. rewrite Nat.div_small by lia.
      rewrite (Nat.mod_small sitW (sitW + 1)) by lia. rewrite Nat.mod_same by lia. cbn [Nat.mul Nat.add].
      replace (sitW + 1) with (S sitW) by lia. unfold spmv_in_order. rewrite replicate_S, imap_cons. f_equal.
      apply list_eq. intros i. rewrite list_lookup_imap. unfold compose.
      destruct (replicate sitW s0 !! i) as [z|] eqn:Hz; [|done]. done. }
    rewrite Heq in Hall. exact Hall.
  Qed.
  Theorem C21_width_zero_refuted B : Coo_to_Cswr B 0 = Undef DivByZero.
  Proof. done. Qed.

  (** ** C22 *)
  Theorem C22_compressed_rows_refuted E : length E + 1 < itW -> exists u, Coo_to_CrCsr E = Undef u.
  Proof. apply Coo_to_CrCsr_undef. Qed.

  (** ** C23: rows [nz] (increasing) are stored, row nz[i] at positions ptr[i] .. ptr[i+1]-1 *)
  Theorem C23_compressed_rows_spmv (nz ptr ind : list nat) (vals : list T) E (rows columns : nat) x y b :
    StronglySorted lt nz -> (forall e, e ∈ E -> row e ∈ nz) -> Forall (fun r => r < rows) nz -> in_range rows columns E ->
    length ptr = S (length nz) ->
    (forall i r, nz !! i = Some r ->
       nth (S i) ptr 0 = nth i ptr 0 + length (bfilter (in_row r) E) /\
       slice (nth i ptr 0) (length (bfilter (in_row r) E)) ind = col <$> bfilter (in_row r) E /\
       slice (nth i ptr 0) (length (bfilter (in_row r) E)) vals = val <$> bfilter (in_row r) E) ->
    columns <= length x -> length y = rows ->
    let A := CrCsr (length nz) (full ptr) (full nz) (full ind) (full vals) in
    all_schedules (crcsr_spmv A x b) (heap_of b y) tt (heap_of b (spmv_in_order E x y)) /\
    all_schedules (crcsr_spmv_serial A x b) (heap_of b y) tt (heap_of b (spmv_in_order E x y)).
  Proof.
    intros Hnz HE Hrows Hin Hlen Hptr Hx Hy A.
    set (R i := match nz !! i with Some r => bfilter (in_row r) E | None => [] end).
    assert (Hrep : csr_rep (full ptr) 0 (full ind) (full vals) 0 (length nz) R).
    { intros i Hi. destruct (lookup_lt_is_Some_2 nz i Hi) as [r Hr]. destruct (Hptr i r Hr) as (H1 & H2 & H3).
      unfold R. rewrite Hr. exists (nth i ptr 0). cbn [Nat.add]. rewrite !aget_full. split; [|split].
      - apply lget_some, nth_some. lia.
      - apply lget_some. replace (i + 1) with (S i) by lia. rewrite <- H1. apply nth_some. lia.
      - intros k e Hk. pose proof (lookup_lt_Some _ _ _ Hk) as Hkl. rewrite !aget_full.
        assert (Hc : slice (nth i ptr 0) (length (bfilter (in_row r) E)) ind !! k = Some (col e)) by (by rewrite H2, list_lookup_fmap, Hk).
        assert (Hv : slice (nth i ptr 0) (length (bfilter (in_row r) E)) vals !! k = Some (val e)) by (by rewrite H3, list_lookup_fmap, Hk).
        rewrite slice_lookup in Hc by done. rewrite slice_lookup in Hv by done. split; by apply lget_some. }
    assert (Hcols : cols_ok (length nz) columns R).
    { intros i Hi. unfold R. destruct (nz !! i); [|constructor]. apply Forall_forall. intros e He.
      apply elem_of_bfilter in He as [He _]. by destruct (in_range_elem _ _ _ _ Hin He). }
    assert (Hupd : forall k z, crcsr_upd nz R (drop 0 x) k z = row_acc E x k z).
    { intros k z. rewrite drop_0. destruct (decide (k ∈ nz)) as [Hk|Hk].
      - apply elem_of_list_lookup in Hk as [i Hi]. rewrite (crcsr_upd_at _ _ _ _ i) by done. unfold R. by rewrite Hi.
      - rewrite crcsr_upd_none by done. rewrite row_acc_none; [done|]. apply Forall_forall. intros e He Hrow.
        apply Hk. rewrite <- Hrow. by apply HE. }
    split.
    - assert (Hp : performs (crcsr_spmv A x b) b 0 (length y) (fun _ => False) (row_acc E x)).
      { rewrite Hy. eapply performs_ext; [|eapply (performs_spmv_crcsr _ _ _ _ R _ columns); try done].
        intros k z _. apply Hupd. }
      apply (performs_vector _ b y _ _ Hp). by intros [].
    - assert (Hp : performs (crcsr_spmv_serial A x b) b 0 (length y) (fun _ => False) (row_acc E x)).
      { rewrite Hy. eapply performs_ext; [|eapply (performs_spmv_crcsr_serial _ _ _ _ R _ columns); try done].
        intros k z _. apply Hupd. }
      apply (performs_vector _ b y _ _ Hp). by intros [].
  Qed.

  (** ** C24, C25 *)
  Theorem C24_dense_cells E (rows columns : nat) :
    in_range rows columns E -> 0 < columns -> rows * columns < itW ->
    exists A cells, Coo_to_Dense E rows columns = Ok A /\ d_rows A = rows /\ d_cols A = columns /\
      d_val A = full cells /\ length cells = rows * columns /\
      forall i j, i < rows -> j < columns -> nth (i * columns + j) cells s0 = last_entry E i j.
  Proof.
    intros HE Hc Hw. eexists _, _. split; [by apply Coo_to_Dense_spec|]. do 3 (split; [done|]).
    split; [unfold dense_list; by rewrite fmap_length, seq_length|].
    intros i j Hi Hj. by apply dense_list_nth.
  Qed.
  Theorem C24_dense_spmv E (rows columns : nat) x y b (one : T) : exact_arith T one -> distinct_coords E ->
    in_range rows columns E -> 0 < columns -> rows * columns < itW -> columns <= length x -> length y = rows ->
    exists A, Coo_to_Dense E rows columns = Ok A /\
      all_schedules (dense_spmv A x 0 b 0) (heap_of b y) tt (heap_of b (y_plus_Ax E columns x y)) /\
      all_schedules (dense_spmv_serial A x 0 b 0) (heap_of b y) tt (heap_of b (y_plus_Ax E columns x y)).
  Proof.
    intros SR Hd HE Hc Hw Hx Hy. eexists. split; [by apply Coo_to_Dense_spec|].
    assert (Heq : imap (dense_row_acc E columns (drop 0 x)) y = y_plus_Ax E columns x y).
    { apply imap_ext. intros i v _. rewrite drop_0. by apply (dense_row_acc_exact E columns x i v one). }
    rewrite <- Heq. split; apply (performs_vector _ b y (fun _ => False)); try (by intros []); rewrite Hy.
    - by apply performs_dense_spmv.
    - by apply performs_dense_spmv_serial.
  Qed.
  (** any value arithmetic, duplicates allowed: each row is accumulated over all columns,
      the last duplicate standing for all *)
  Theorem C25_dense_spmv_last_wins E (rows columns : nat) x y b :
    in_range rows columns E -> 0 < columns -> rows * columns < itW -> columns <= length x -> length y = rows ->
    exists A, Coo_to_Dense E rows columns = Ok A /\
      let y' := imap (fun i yi => fold_left (fun acc j => sadd acc (smul (last_entry E i j) (at_ x j))) (seq 0 columns) yi) y in
      all_schedules (dense_spmv A x 0 b 0) (heap_of b y) tt (heap_of b y') /\
      all_schedules (dense_spmv_serial A x 0 b 0) (heap_of b y) tt (heap_of b y').
  Proof.
    intros HE Hc Hw Hx Hy. eexists. split; [by apply Coo_to_Dense_spec|]. cbv zeta.
    assert (Heq : imap (dense_row_acc E columns (drop 0 x)) y =
      imap (fun i yi => fold_left (fun acc j => sadd acc (smul (last_entry E i j) (at_ x j))) (seq 0 columns) yi) y) by (by rewrite drop_0).
    rewrite <- Heq. split; apply (performs_vector _ b y (fun _ => False)); try (by intros []); rewrite Hy.
    - by apply performs_dense_spmv.
    - by apply performs_dense_spmv_serial.
  Qed.

  (** ** C26: rows, cols are the block's dimensions *)
  Theorem C26_block_coo E (rows columns : nat) x y b (xo : nat) : sitW < itW -> (N.of_nat sitW < 2 ^ 31)%N ->
    in_range rows columns E -> xo + columns <= length x -> length y = rows ->
    Coo_to_BlockCoo E = Abort /\ (exists e, e ∈ E /\ (sitW <= row e \/ sitW <= col e)) \/
    exists A E', Coo_to_BlockCoo E = Ok (A, E') /\ E' ≡ₚ E /\
      k_nnz A = length E /\ k_I A = full (row <$> E') /\ k_J A = full (col <$> E') /\ k_val A = full (val <$> E') /\
      all_schedules (coo1_spmv A x xo b 0) (heap_of b y) tt (heap_of b (spmv_in_order E' (drop xo x) y)).
  Proof.
    intros Hw Hs HE Hx Hy. destruct (Coo_to_BlockCoo_spec E Hw Hs) as [[Hf HA]|[Hf HA]].
    - right. cbv zeta in HA. eexists _, _. split; [exact HA|]. split; [apply isort_perm|].
      split; [apply isort_length|]. do 3 (split; [done|]).
      apply (performs_vector _ b y (fun _ => False)); [|by intros []]. rewrite Hy.
      eapply (performs_coo1_spmv (fun i => i) (isort compare_morton E) rows columns x xo); [by apply Forall_true| |done].
      eapply in_range_perm; [symmetry; apply isort_perm|done].
    - left. split; [done|]. apply not_Forall_Exists in Hf; [|apply _]. apply Exists_exists in Hf as (e & He & Hne).
      exists e. split; [done|]. unfold compose in Hne. cbv beta in Hne. lia.
  Qed.

  (** ** C27 *)
  Theorem C27_block_csr E (rows columns : nat) x y b :
    StronglySorted (fun e1 e2 => row e1 <= row e2) E -> in_range rows columns E -> columns <= sitW ->
    rows + 1 < itW -> length E < itW -> columns <= length x -> length y = rows ->
    exists A, Coo_to_BlockCsr E rows columns = Ok A /\ csr_ind A = full (col <$> E) /\
      all_schedules (csr_spmv A x b) (heap_of b y) tt (heap_of b (spmv_in_order E x y)) /\
      all_schedules (csr_spmv_serial A x b) (heap_of b y) tt (heap_of b (spmv_in_order E x y)).
  Proof.
    intros Hs HE Hc Hr Hn Hx Hy. unfold Coo_to_BlockCsr. rewrite csr_build_spec by (done || by eapply in_range_rows).
    assert (Hcol : Forall (fun e => swrap (col e) = col e) E).
    { eapply Forall_impl; [exact HE|]. intros e [_ ?]. apply swrap_small. lia. }
    eexists. split; [done|]. split.
    { cbn. f_equal. apply list_fmap_ext. intros i e He. rewrite Forall_lookup in Hcol. by eapply Hcol. }
    assert (Heq : imap (fun k z => fold_left (accum (drop 0 x)) (bfilter (in_row k) E) z) y = spmv_in_order E x y) by (by rewrite drop_0).
    rewrite <- Heq. split; apply (performs_vector _ b y (fun _ => False)); try (by intros []); rewrite Hy.
    - eapply performs_spmv_csr; [by apply csr_build_rep|by apply rows_cols_ok|done].
    - eapply performs_spmv_csr_serial; [by apply csr_build_rep|by apply rows_cols_ok|done|].
      eexists. apply ptrs_get. lia.
  Qed.
  (** column sitW is stored as column 0, silently *)
  Theorem C27_truncation_refuted (v : T) : 0 < sitW -> 2 < itW ->
    exists E A, in_range 1 (sitW + 1) E /\ col <$> E = [sitW] /\
      Coo_to_BlockCsr E 1 (sitW + 1) = Ok A /\ csr_ind A = full [0].
  Proof.
    intros Hs Hw. exists [Elem 0 sitW v 0]. unfold Coo_to_BlockCsr.
    rewrite csr_build_spec; [|repeat constructor; simpl; lia|lia|simpl; lia].
    eexists. split; [repeat constructor; simpl; lia|]. split; [done|]. split; [done|].
    cbn. do 3 f_equal. unfold swrap. apply Nat.mod_same. lia.
  Qed.

  (** ** C44 *)
  Fixpoint times (k : nat) (v : T) : T := match k with O => s0 | S k => sadd v (times k v) end.
  Theorem C44_repeated_spmv B x y b (k : nat) (one : T) : exact_arith T one ->
    in_range (c_rows B) (c_cols B) (c_elems B) -> c_rows B + 1 < itW -> c_nnz B < itW ->
    c_cols B <= length x -> length y = c_rows B ->
    exists A B', Coo_to_Csr B = Ok (A, B') /\
      all_schedules (pfor k 0 (fun _ => csr_spmv A x b)) (heap_of b y) tt
        (heap_of b (imap (fun i yi => sadd yi (times k (dot (c_elems B) (c_cols B) x i))) y)).
  Proof.
    intros SR HB Hr Hn Hx Hy. pose proof (Coo_to_Csr_spec B HB Hr Hn) as HA. cbv zeta in HA.
    eexists _, _. split; [exact HA|].
    destruct (csr_facts B _ _ x y HB Hr Hn HA Hx Hy) as (Hrows & Hrep & Hc & _).
    set (A := Csr _ _ _ _ _) in *.
    assert (Hp : performs (csr_spmv A x b) b 0 (c_rows B) (fun _ => False) (fun i yi => sadd yi (dot (c_elems B) (c_cols B) x i))).
    { eapply performs_ext; [|unfold csr_spmv; rewrite Hrows; eapply performs_spmv_csr; eauto].
      intros i z Hi. cbv beta. rewrite drop_0, spmv_by_column_row.
      erewrite (row_acc_perm one SR); [|apply isort_perm]. by eapply (row_acc_dot one SR). }
    pose proof (performs_pfor (fun _ => csr_spmv A x b) k 0 b 0 (c_rows B) (fun _ => False)
      (fun _ i yi => sadd yi (dot (c_elems B) (c_cols B) x i)) (fun _ _ => Hp)) as Hk.
    assert (Hk2 : performs (pfor k 0 (fun _ => csr_spmv A x b)) b 0 (length y) (fun _ => False)
              (fun i yi => sadd yi (times k (dot (c_elems B) (c_cols B) x i)))).
    { rewrite Hy. eapply performs_ext; [|exact Hk]. intros i z _. cbv beta.
      generalize (dot (c_elems B) (c_cols B) x i). intros d. clear -SR. generalize 0 as lo. revert z.
      induction k as [|k IH]; intros z lo; cbn [seq fold_left times].
      - destruct SR. rewrite SRadd_comm. by rewrite SRadd_0_l.
      - rewrite IH. destruct SR. by rewrite SRadd_assoc. }
    apply (performs_vector _ b y _ _ Hk2). by intros [].
  Qed.
End C15_C27.

(** ** The hypotheses are met: a 4 x 5 matrix with a repeated coordinate, the index
    types of the default build *)
Definition ex_B : coo Z := Coo 4 5 [Elem 3 4 7%Z 0; Elem 0 2 2%Z 0; Elem 3 0 5%Z 0; Elem 0 2 3%Z 0; Elem 1 1 1%Z 0].
Definition ex_x : list Z := [1%Z; 10%Z; 100%Z; 1000%Z; 10000%Z].
Definition ex_y : list Z := [1%Z; 2%Z; 3%Z; 4%Z].
Lemma default_big n : (N.of_nat n < 2 ^ 32)%N -> n < @itW default_widths.
Proof. intros Hn. cbn [itW default_widths]. lia. Qed.
Lemma default_small n : (N.of_nat n <= 2 ^ 16)%N -> n <= @sitW default_widths.
Proof. intros Hn. cbn [sitW default_widths]. lia. Qed.
Example C15_C21_ex : exact_arith Z 1%Z /\ in_range (c_rows ex_B) (c_cols ex_B) (c_elems ex_B) /\
  c_rows ex_B + 32 + 1 < @itW default_widths /\ c_nnz ex_B < @itW default_widths /\ 32 <= @sitW default_widths /\
  c_cols ex_B <= length ex_x /\ length ex_y = c_rows ex_B /\
  y_plus_Ax (c_elems ex_B) (c_cols ex_B) ex_x ex_y = [501%Z; 12%Z; 3%Z; 70009%Z].
Proof.
  split; [apply exact_Z|]. split; [repeat constructor|]. split; [by apply default_big|]. split; [by apply default_big|].
  split; [by apply default_small|]. split; [simpl; lia|]. split; [done|]. by vm_compute.
Qed.
Example C21_ex : 0 < @sitW default_widths /\ @sitW default_widths + @sitW default_widths + 3 < @itW default_widths /\ 1 < @itW default_widths.
Proof. cbn [itW sitW default_widths]. split; [lia|]. split; lia. Qed.
(** compressed rows: rows 0 and 3 stored *)
Example C23_ex : StronglySorted lt [0; 1; 3] /\
  (let E := [Elem 0 2 2%Z 0; Elem 0 2 3%Z 0; Elem 1 1 1%Z 0; Elem 3 0 5%Z 0; Elem 3 4 7%Z 0] in
   let ptr := [0; 2; 3; 5] in
   (forall e, e ∈ E -> row e ∈ [0; 1; 3]) /\
   forall i r, [0; 1; 3] !! i = Some r ->
       nth (S i) ptr 0 = nth i ptr 0 + length (bfilter (in_row r) E) /\
       slice (nth i ptr 0) (length (bfilter (in_row r) E)) [2; 2; 1; 0; 4] = col <$> bfilter (in_row r) E /\
       slice (nth i ptr 0) (length (bfilter (in_row r) E)) [2%Z; 3%Z; 1%Z; 5%Z; 7%Z] = val <$> bfilter (in_row r) E).
Proof.
  split; [repeat constructor; lia|]. cbv zeta. split.
  - intros e He. repeat (apply elem_of_cons in He as [->|He]; [set_solver|]). by apply elem_of_nil in He.
  - intros i r Hi. do 3 (destruct i as [|i]; [injection Hi as <-; done|]). done.
Qed.
(** the dense format loses one of two elements in the same place, the sparse ones add them *)
Example C24_ex : distinct_coords [Elem 0 2 2%Z 0; Elem 1 2 3%Z 0; Elem 1 1 1%Z 0].
Proof. unfold distinct_coords. repeat constructor; set_solver. Qed.
Theorem C25_dense_duplicates_refuted :
  let E := [Elem 0 0 1%Z 0; Elem 0 0 2%Z 0] in
  exists A, @Coo_to_Dense Z _ default_widths E 1 1 = Ok A /\
    all_schedules (@dense_spmv Z _ default_widths A [1%Z] 0 [] 0) (heap_of [] [0%Z]) tt (heap_of [] [2%Z]) /\
    y_plus_Ax E 1 [1%Z] [0%Z] = [3%Z].
Proof.
  cbv zeta. pose (W := default_widths).
  destruct (@C25_dense_spmv_last_wins Z _ W [Elem 0 0 1%Z 0; Elem 0 0 2%Z 0] 1 1 [1%Z] [0%Z] []) as (A & HA & Hs & _).
  - repeat constructor.
  - lia.
  - by apply default_big.
  - simpl; lia.
  - done.
  - exists A. split; [done|]. split; [exact Hs|done].
Qed.
Example C26_C27_ex : let E := [Elem 0 2 2%Z 0; Elem 1 2 3%Z 0; Elem 1 4 1%Z 0] in
  @sitW default_widths < @itW default_widths /\ (N.of_nat (@sitW default_widths) < 2 ^ 31)%N /\
  StronglySorted (fun a b => row a <= row b) E /\ in_range 2 5 E /\ 5 <= @sitW default_widths.
Proof.
  cbv zeta. split; [cbn [itW sitW default_widths]; lia|]. split; [cbn [sitW default_widths]; lia|].
  split; [repeat constructor; simpl; lia|]. split; [repeat constructor|]. by apply default_small.
Qed.
