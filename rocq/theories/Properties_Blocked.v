(** Properties_Blocked.v: C28-C31, C35-C41, C45, the matrices of CSR/COO blocks and the
    partitioned kernels.  [all_schedules], [heap_of]: see Properties_Simple.v. *)
From Verif Require Import DenseProof Csbr3Chunk Properties_Utils Properties_Simple.

(** a matrix and a blocking the constructors accept: some element, coordinates inside,
    offsets that divide rows and columns into at most as many blocks as there are
    rows/columns, and sizes within the index type; the number of blocks may be beyond the index
    type as long as the blocks that have elements can be numbered ([numbered], UtilsProof.v) *)
Definition blockable `{Widths} {T} (B : coo T) (roff : list nat) (nbr : nat) (coff : list nat) (nbc : nat) : Prop :=
  c_elems B <> [] /\ in_range (c_rows B) (c_cols B) (c_elems B) /\
  blocking roff nbr (c_rows B) /\ blocking coff nbc (c_cols B) /\
  nbr <= c_rows B /\ nbc <= c_cols B /\ numbered roff nbr coff nbc (c_elems B) /\
  c_rows B + 1 < itW /\ c_cols B < itW /\ c_nnz B < itW.
(** when the index type holds the number of blocks, all can be numbered *)
Lemma blockable_few `{Widths} {T} (B : coo T) (roff : list nat) (nbr : nat) (coff : list nat) (nbc : nat) :
  c_elems B <> [] /\ in_range (c_rows B) (c_cols B) (c_elems B) /\
  blocking roff nbr (c_rows B) /\ blocking coff nbc (c_cols B) /\
  nbr <= c_rows B /\ nbc <= c_cols B /\ nbr * nbc < itW /\
  c_rows B + 1 < itW /\ c_cols B < itW /\ c_nnz B < itW -> blockable B roff nbr coff nbc.
Proof.
  intros (H1 & H2 & H3 & H4 & H5 & H6 & H7 & H8). split; [exact H1|]. split; [exact H2|]. split; [exact H3|]. split; [exact H4|].
  split; [exact H5|]. split; [exact H6|]. split; [|exact H8]. exact (numbered_small _ _ _ _ _ _ _ H3 H4 H2 H1 H7).
Qed.
(** a number of OpenMP threads the partitioner can work with *)
Definition workers_ok `{Widths} {T} (B : coo T) (workers : nat) : Prop :=
  0 < workers /\ 2 * workers < itW /\ 2 * (c_nnz B + 2) < itW.
(** a constant block size for Csbr3 *)
Definition blockable3 `{Widths} {T} (B : coo T) (bs : nat) : Prop :=
  c_elems B <> [] /\ in_range (c_rows B) (c_cols B) (c_elems B) /\
  0 < bs /\ bs <= sitW /\ ceil_nb (c_rows B) bs * ceil_nb (c_cols B) bs < itW /\
  c_rows B + bs < itW /\ c_cols B + bs < itW /\ c_nnz B + 1 < itW.

Lemma ksorted_position {A} (key : A -> nat) (l : list A) i a : ksorted key l -> l !! i = Some a ->
  cntlt (key <$> l) (key a) <= i < cntlt (key <$> l) (S (key a)).
Proof.
  intros Hs Hi. apply elem_of_list_split_length in Hi as (l1 & l2 & -> & Hlen).
  apply ksorted_keys in Hs. rewrite fmap_app, fmap_cons in *.
  assert (Hl1 : Forall (fun c => key c <= key a) l1 /\ Forall (fun c => key a <= key c) l2).
  { clear Hlen i. induction l1 as [|c l1 IH]; cbn in Hs.
    - split; [constructor|]. apply StronglySorted_inv in Hs as [_ Hs]. by rewrite Forall_fmap in Hs.
    - apply StronglySorted_inv in Hs as [Hs Hc]. destruct (IH Hs) as [I1 I2]. split; [|done]. constructor; [|done].
      rewrite Forall_forall in Hc. apply Hc. set_solver. }
  destruct Hl1 as [F1 F2].
  change (key a :: (key <$> l2)) with ([key a] ++ (key <$> l2)). rewrite !cntlt_app.
  assert (cntlt (key <$> l2) (key a) = 0) as ->.
  { unfold cntlt. rewrite filter_none; [done|]. apply Forall_fmap. eapply Forall_impl; [exact F2|]. intros c Hc. by apply Nat.ltb_ge. }
  rewrite (cntlt_all (key <$> l1) (S (key a))) by (apply Forall_fmap; eapply Forall_impl; [exact F1|]; cbn; lia).
  rewrite fmap_length. pose proof (cntlt_le (key <$> l1) (key a)) as Hle. rewrite fmap_length in Hle.
  assert (cntlt [key a] (key a) = 0 /\ cntlt [key a] (S (key a)) = 1) as [-> ->].
  { unfold cntlt. cbn [List.filter]. rewrite Nat.ltb_irrefl. by rewrite (proj2 (Nat.ltb_lt (key a) (S (key a)))) by lia. }
  lia.
Qed.

Section C28_C45.
  Context {T : Type} `{Scalar T} `{Widths}.
  Implicit Types (B : coo T) (E : list (elem T)) (x y : list T) (b : buf) (roff coff : list nat).

  (** ** C28 *)
  Theorem C28_csbr_spmv B roff nbr coff nbc workers x y b (one : T) : exact_arith T one ->
    blockable B roff nbr coff nbc -> workers_ok B workers -> c_cols B <= length x -> length y = c_rows B ->
    exists A parts B', Coo_to_Csbr workers B (full roff) nbr (full coff) nbc = Ok (A, parts, B') /\
      forall balanced, all_schedules (csbr_spmv A parts balanced x b) (heap_of b y) tt (heap_of b (y_plus_Ax (c_elems B) (c_cols B) x y)).
  Proof.
    destruct B as [rows cols E]. unfold c_nnz. cbn [c_rows c_cols c_elems].
    intros SR (Hne & HE & Hr & Hc & H1 & H2 & H3 & H4 & H5 & H6) (W1 & W2 & W3) Hx Hy. unfold c_nnz in *. cbn [c_rows c_cols c_elems] in *.
    destruct (Coo_to_Csbr_spec roff nbr rows coff nbc cols E Hr Hc HE Hne H1 H2 H3 H4 H5 H6 workers W1 W2 W3) as (parts & HA & Hg & _).
    eexists _, _, _. split; [exact HA|]. intros [].
    - rewrite <- (spmv_by_column_exact one SR rows) by done. by apply csbr_balanced.
    - rewrite <- (spmv_chunked_exact roff nbr rows coff nbc cols E Hr Hc HE x one SR parts y) by done. by eapply csbr_unbalanced.
  Qed.
  (** for any value arithmetic: the balanced kernel accumulates every row by column, the
      chunked one has one result, whatever the schedule *)
  Theorem C28_csbr_spmv_any B roff nbr coff nbc workers x y b :
    blockable B roff nbr coff nbc -> workers_ok B workers -> c_cols B <= length x -> length y = c_rows B ->
    exists A parts B' y', Coo_to_Csbr workers B (full roff) nbr (full coff) nbc = Ok (A, parts, B') /\
      all_schedules (csbr_spmv A parts true x b) (heap_of b y) tt (heap_of b (spmv_by_column (c_elems B) x y)) /\
      all_schedules (csbr_spmv A parts false x b) (heap_of b y) tt (heap_of b y').
  Proof.
    destruct B as [rows cols E]. unfold c_nnz. cbn [c_rows c_cols c_elems].
    intros (Hne & HE & Hr & Hc & H1 & H2 & H3 & H4 & H5 & H6) (W1 & W2 & W3) Hx Hy. unfold c_nnz in *. cbn [c_rows c_cols c_elems] in *.
    destruct (Coo_to_Csbr_spec roff nbr rows coff nbc cols E Hr Hc HE Hne H1 H2 H3 H4 H5 H6 workers W1 W2 W3) as (parts & HA & Hg & _).
    eexists _, _, _, _. split; [exact HA|]. split; [by apply csbr_balanced|by eapply csbr_unbalanced].
  Qed.
  (** constant block sizes *)
  Lemma const_nb_max (dim size : nat) : const_nb dim size = Nat.max 1 (dim / size).
  Proof. unfold const_nb. by destruct (dim / size). Qed.
  Lemma blockable_const B br_size bc_size : 0 < br_size -> 0 < bc_size -> c_elems B <> [] -> in_range (c_rows B) (c_cols B) (c_elems B) ->
    c_rows B + 2 < itW -> c_cols B + 2 < itW -> c_nnz B < itW ->
    const_nb (c_rows B) br_size * const_nb (c_cols B) bc_size < itW ->
    blockable B (const_off (c_rows B) br_size) (const_nb (c_rows B) br_size) (const_off (c_cols B) bc_size) (const_nb (c_cols B) bc_size).
  Proof.
    intros S1 S2 Hne HE H1 H2 H3 H4. split; [done|]. split; [done|]. split; [by apply const_off_blocking|]. split; [by apply const_off_blocking|].
    assert (Hd : forall dim size, 0 < size -> 0 < dim -> const_nb dim size <= dim).
    { intros dim size Hs Hd. destruct (const_nb_bound dim size Hs); [lia|]. nia. }
    assert (0 < c_rows B /\ 0 < c_cols B).
    { destruct (c_elems B) as [|e l]; [done|]. apply Forall_inv in HE. destruct HE. lia. }
    split; [apply Hd; lia|]. split; [apply Hd; lia|]. split; [eapply numbered_small; first [eassumption|by apply const_off_blocking]|]. split; [lia|]. split; [lia|done].
  Qed.
  Theorem C28_csbr_const_spmv B br_size bc_size workers x y b (one : T) : exact_arith T one ->
    0 < br_size -> 0 < bc_size -> c_elems B <> [] -> in_range (c_rows B) (c_cols B) (c_elems B) ->
    c_rows B + 2 < itW -> c_cols B + 2 < itW -> Nat.max 1 (c_rows B / br_size) * Nat.max 1 (c_cols B / bc_size) < itW -> workers_ok B workers ->
    c_cols B <= length x -> length y = c_rows B ->
    exists A parts B', Coo_to_Csbr_const workers B br_size bc_size = Ok (A, parts, B') /\
      forall balanced, all_schedules (csbr_spmv A parts balanced x b) (heap_of b y) tt (heap_of b (y_plus_Ax (c_elems B) (c_cols B) x y)).
  Proof.
    intros SR S1 S2 Hne HE H1 H2 H3 HW Hx Hy. unfold Coo_to_Csbr_const. rewrite !const_offsets_spec by done. cbn [mbind outcome_bind].
    apply (C28_csbr_spmv B _ _ _ _ workers x y b one SR); try done. apply blockable_const; try done.
    - destruct HW as (_ & _ & HW). lia.
    - by rewrite !const_nb_max.
  Qed.

  (** ** C29 *)
  Theorem C29_csbr2_spmv_any B roff nbr coff nbc x y b :
    blockable B roff nbr coff nbc -> c_cols B <= length x -> length y = c_rows B ->
    exists A B', Coo_to_Csbr2 B (full roff) nbr (full coff) nbc = Ok (A, B') /\
      all_schedules (csbr2_spmv A x b) (heap_of b y) tt (heap_of b (spmv_by_column (c_elems B) x y)).
  Proof.
    destruct B as [rows cols E]. unfold c_nnz. cbn [c_rows c_cols c_elems].
    intros (Hne & HE & Hr & Hc & H1 & H2 & H3 & H4 & H5 & H6) Hx Hy. unfold c_nnz in *. cbn [c_rows c_cols c_elems] in *.
    eexists _, _. split; [by eapply Coo_to_Csbr2_spec|]. by eapply csbr2_spmv_spec.
  Qed.
  Theorem C29_csbr2_spmv B roff nbr coff nbc x y b (one : T) : exact_arith T one ->
    blockable B roff nbr coff nbc -> c_cols B <= length x -> length y = c_rows B ->
    exists A B', Coo_to_Csbr2 B (full roff) nbr (full coff) nbc = Ok (A, B') /\
      all_schedules (csbr2_spmv A x b) (heap_of b y) tt (heap_of b (y_plus_Ax (c_elems B) (c_cols B) x y)).
  Proof.
    intros SR HB Hx Hy. rewrite <- (spmv_by_column_exact one SR (c_rows B)) by apply HB. by apply C29_csbr2_spmv_any.
  Qed.

  (** ** C30: element i of the sorted source is stored at position i, inside the slice of
      a block (br, bc) whose origin and the stored short indices give back its coordinates *)
  Theorem C30_csbr3_construction B bs : blockable3 B bs ->
    exists A B', Coo_to_Csbr3 B bs = Ok (A, B') /\ same_elements (c_elems B) (c_elems B') /\
      s3_block_size A = bs /\ s3_nnz A = c_nnz B /\
      forall i e, c_elems B' !! i = Some e ->
        exists k br bc first last r c from to,
          k < s3_nnzblocks A /\ aget (s3_block_ptr A) k = Ok first /\ aget (s3_block_ptr A) (k + 1) = Ok last /\ first <= i < last /\
          aget (s3_ptr A) br = Ok from /\ aget (s3_ptr A) (br + 1) = Ok to /\ from <= k < to /\ aget (s3_ind A) k = Ok bc /\
          aget (s3_rowind A) i = Ok r /\ aget (s3_colind A) i = Ok c /\ r < bs /\ c < bs /\
          row e = br * bs + r /\ col e = bc * bs + c /\ aget (s3_val A) i = Ok (val e).
  Proof.
    destruct B as [rows cols E]. unfold c_nnz. cbn [c_rows c_cols c_elems].
    intros (Hne & HE & Hb & Hs & H1 & H2 & H3 & H4). unfold c_nnz in *. cbn [c_rows c_cols c_elems] in *.
    pose proof (ceil_off_blocking rows bs Hb) as Hr. pose proof (ceil_off_blocking cols bs Hb) as Hc.
    set (nbr := ceil_nb rows bs) in *. set (nbc := ceil_nb cols bs) in *. set (roff := ceil_off rows bs) in *. set (coff := ceil_off cols bs) in *.
    eexists _, _. split; [by apply Coo_to_Csbr3_spec|]. cbn [c_elems csbr3_matrix s3_block_size s3_nnz s3_nnzblocks s3_block_ptr s3_ptr s3_ind s3_rowind s3_colind s3_val].
    fold roff coff nbr nbc. split; [unfold same_elements; symmetry; apply bsorted_coords|]. split; [done|]. split; [done|].
    set (E' := bsorted roff nbr coff nbc E) in *. set (I := bids roff nbr coff nbc E) in *.
    intros i e He. assert (HeE : e ∈ E') by (by eapply elem_of_list_lookup_2).
    assert (HbI : blk e ∈ I) by (by apply blk_in_bids).
    apply elem_of_list_lookup in HbI as [k Hk]. pose proof (lookup_lt_Some _ _ _ Hk) as Hkl.
    destruct (bsorted_inside roff nbr rows coff nbc cols E Hr Hc HE e HeE) as (B1 & B2 & B3 & B4).
    destruct (loc_inside roff nbr rows coff nbc cols E Hr Hc HE e HeE) as [L1 L2].
    assert (HKI : forall q, q ∈ blk <$> E' -> q ∈ I) by (intros q (e' & -> & He')%elem_of_list_fmap; by apply blk_in_bids).
    pose proof (start_S (blk <$> E') I (bids_sorted _ _ _ _ _) HKI k (blk e) Hk) as HS.
    assert (Hst : forall j, j <= length I ->
      aget (full (((fun id => cntlt (blk <$> E') id) <$> I) ++ [length E])) j = Ok (start_of (blk <$> E') I j)).
    { intros j Hj. rewrite aget_full. apply lget_some. unfold start_of. destruct (I !! j) as [q|] eqn:Hi.
      - rewrite lookup_app_l by (rewrite fmap_length; by eapply lookup_lt_Some). by rewrite list_lookup_fmap, Hi.
      - apply lookup_ge_None_1 in Hi. rewrite lookup_app_r by (rewrite fmap_length; lia). rewrite !fmap_length. unfold E'. rewrite bsorted_length.
        by replace (j - length I) with 0 by lia. }
    assert (Hpos : start_of (blk <$> E') I k <= i < start_of (blk <$> E') I (S k)).
    { rewrite HS. assert (start_of (blk <$> E') I k = cntlt (blk <$> E') (blk e)) as -> by (unfold start_of; by rewrite Hk).
      rewrite <- cntlt_S. apply ksorted_position; [apply bsorted_ksorted|done]. }
    assert (Hbr : brs roff nbr coff nbc E !! k = Some (blk e / nbc)) by (unfold brs; by rewrite list_lookup_fmap; fold I; rewrite Hk).
    destruct (ksorted_position (fun n => n) _ k _ (brs_sorted roff nbr coff nbc E) Hbr) as [P1 P2]. rewrite list_fmap_id in P1, P2.
    unfold in_block in B3, B4.
    destruct (ceil_off_lt rows bs (blk e / nbc) Hb B1) as [O1 _]. destruct (ceil_off_lt cols bs (blk e mod nbc) Hb B2) as [O2 _].
    assert (O3 : nth (S (blk e / nbc)) roff 0 <= S (blk e / nbc) * bs) by (unfold roff; rewrite ceil_off_nth by lia; lia).
    assert (O4 : nth (S (blk e mod nbc)) coff 0 <= S (blk e mod nbc) * bs) by (unfold coff; rewrite ceil_off_nth by lia; lia).
    fold roff coff in O1, O2. rewrite O1 in B3. rewrite O2 in B4.
    exists k, (blk e / nbc), (blk e mod nbc), (start_of (blk <$> E') I k), (start_of (blk <$> E') I (S k)),
      (row e - blk e / nbc * bs), (col e - blk e mod nbc * bs),
      (cntlt (brs roff nbr coff nbc E) (blk e / nbc)), (cntlt (brs roff nbr coff nbc E) (S (blk e / nbc))).
    replace (k + 1) with (S k) by lia. replace (blk e / nbc + 1) with (S (blk e / nbc)) by lia.
    split; [done|]. split; [apply Hst; lia|]. split; [apply Hst; lia|]. split; [done|].
    split; [apply ptrs_get; lia|]. split; [apply ptrs_get; lia|]. split; [done|].
    split; [rewrite aget_full; apply lget_some; by rewrite list_lookup_fmap, Hk|].
    split. { rewrite aget_full. apply lget_some. rewrite list_lookup_fmap, He, <- O1. reflexivity. }
    split. { rewrite aget_full. apply lget_some. rewrite list_lookup_fmap, He, <- O2. reflexivity. }
    generalize dependent (blk e / nbc). generalize dependent (blk e mod nbc). intros.
    split; [lia|]. split; [lia|]. split; [lia|]. split; [lia|].
    rewrite aget_full. apply lget_some. by rewrite list_lookup_fmap, He.
  Qed.
  Theorem C30_csbr3_balanced_spmv B bs x y b : blockable3 B bs -> c_cols B <= length x -> length y = c_rows B ->
    exists A B', Coo_to_Csbr3 B bs = Ok (A, B') /\
      all_schedules (csbr3_spmv_balanced A x b) (heap_of b y) tt (heap_of b (spmv_by_column (c_elems B) x y)).
  Proof.
    destruct B as [rows cols E]. unfold c_nnz. cbn [c_rows c_cols c_elems].
    intros (Hne & HE & Hb & Hs & H1 & H2 & H3 & H4) Hx Hy. unfold c_nnz in *. cbn [c_rows c_cols c_elems] in *.
    eexists _, _. split; [by apply Coo_to_Csbr3_spec|by apply csbr3_balanced].
  Qed.

  (** ** C31 *)
  (** chunks [c0; c1; ...; cn] of block row bi: they tile the blocks of the block row *)
  Definition chunks_of (A : csbr3 T) (bi : nat) (chunks : list nat) : Prop :=
    exists from to, aget (s3_ptr A) bi = Ok from /\ aget (s3_ptr A) (bi + 1) = Ok to /\
      2 <= length chunks /\ nth 0 chunks 0 = from /\ nth (length chunks - 1) chunks 0 = to /\
      forall i, S i < length chunks -> nth i chunks 0 <= nth (S i) chunks 0.
  (** a block row all of whose rows exist: the kernel adds A x to these rows of y *)
  Theorem C31_csbr3_chunk_full_row B bs x y b bi chunks (one : T) : exact_arith T one ->
    blockable3 B bs -> c_cols B <= length x -> length y = c_rows B -> (bi + 1) * bs <= c_rows B ->
    2 * length chunks < itW ->
    exists A B', Coo_to_Csbr3 B bs = Ok (A, B') /\
      (chunks_of A bi chunks ->
       all_schedules (csbr3_spmv_chunk (length chunks) A x chunks 0 (length chunks - 1) b (bi * bs) (temp_name b 0)) (heap_of b y) tt
         (heap_of b (imap (fun i yi => if decide (bi * bs <= i < (bi + 1) * bs) then sadd yi (dot (c_elems B) (c_cols B) x i) else yi) y))).
  Proof.
    destruct B as [rows cols E]. unfold c_nnz. cbn [c_rows c_cols c_elems].
    intros SR (Hne & HE & Hb & Hs & H1 & H2 & H3 & H4) Hx Hy Hbi Hch. unfold c_nnz in *. cbn [c_rows c_cols c_elems] in *.
    eexists _, _. split; [by apply Coo_to_Csbr3_spec|]. intros (from & to & Hf & Ht & C1 & C2 & C3 & C4).
    assert (Hbn : bi < ceil_nb rows bs). { destruct (ceil_nb_bound rows bs Hb) as [Hn _]. nia. }
    cbn [csbr3_matrix s3_ptr] in Hf, Ht. rewrite ptrs_get in Hf by lia. rewrite ptrs_get in Ht by lia.
    replace (bi + 1) with (S bi) in Ht by lia. injection Hf as <-. injection Ht as <-.
    apply (csbr3_chunk_row rows cols bs E Hb Hs HE H1 H2 H3 H4 one SR); done.
  Qed.
  (** a last block row with fewer rows, cut into two or more chunks: no schedule ends
      normally, y is accessed past its end *)
  Theorem C31_csbr3_ragged_refuted (A : csbr3 T) x y b bi chunks fuel : 
    bi * s3_block_size A < length y < (bi + 1) * s3_block_size A -> 2 < length chunks < itW ->
    never_completes (csbr3_spmv_chunk fuel A x chunks 0 (length chunks - 1) b (bi * s3_block_size A) (temp_name b 0)) (heap_of b y).
  Proof.
    intros Hy Hch. apply (csbr3_chunk_doomed _ _ _ _ _ _ _ _ _ _ (length y - bi * s3_block_size A)).
    - rewrite wsub_small by lia. lia.
    - apply temp_name_self.
    - lia.
    - replace (bi * s3_block_size A + (length y - bi * s3_block_size A)) with (length y) by lia.
      rewrite heap_of_lookup. cbn [fst snd]. by rewrite decide_False by lia.
  Qed.

  (** ** C35, C36, C37: any blocked matrix A of which block k, start <= k < end_, has
      f k non-zeros.  The boundaries chunks[0], ..., chunks[n] delimit n chunks. *)
  Definition load (f : nat -> nat) (from to : nat) : nat := sum_list_with f (seq from (to - from)).
  Lemma load_sum f a e : load f a e = sum_between f a e.
  Proof.
    unfold load, sum_between. generalize (e - a). intros n. revert a. induction n as [|n IH]; intros a; [done|].
    cbn [seq sum_list_with sumf]. by rewrite IH.
  Qed.
  Definition partition_input (A : blocked T) (workers start end_ : nat) (f : nat -> nat) : Prop :=
    0 < workers /\ 2 * workers < itW /\ bk_nnz A < itW /\ start <= end_ < itW /\
    (forall k, start <= k < end_ -> bk_nonzeros A k = Ok (f k)) /\ load f start end_ < itW.
  Lemma partition_run (A : blocked T) workers start end_ f : partition_input A workers start end_ f ->
    exists chunks, partition_blockrow A workers start end_ = Ok (chunks, length chunks) /\
      partition_spec f (bk_nnz A / (2 * workers)) start end_ chunks.
  Proof.
    intros (W1 & W2 & Hn & Hse & Hf & Hl). rewrite load_sum in Hl.
    apply partition_blockrow_spec; [by apply min_nnz_ok|lia|lia|done|done].
  Qed.
  Theorem C35_partition_tiles (A : blocked T) workers start end_ f : partition_input A workers start end_ f ->
    exists chunks r, partition_blockrow A workers start end_ = Ok (chunks, r) /\
      2 <= length chunks /\ chunks !! 0 = Some start /\ chunks !! (length chunks - 1) = Some end_ /\
      (forall i c c', chunks !! i = Some c -> chunks !! S i = Some c' -> c <= c') /\
      (** so every block lies in exactly one chunk *)
      forall k, start <= k < end_ -> exists i c c', chunks !! i = Some c /\ chunks !! S i = Some c' /\ c <= k < c' /\
        forall j d d', chunks !! j = Some d -> chunks !! S j = Some d' -> d <= k < d' -> j = i.
  Proof.
    intros HA. destruct (partition_run A workers start end_ f HA) as (chunks & Hrun & [Hh Hl Hlen Hm _ _ _]).
    exists chunks, (length chunks). split; [done|]. split; [lia|]. split; [done|].
    assert (Hlast : chunks !! (length chunks - 1) = Some end_) by (rewrite last_lookup in Hl; rewrite <- Hl; f_equal; lia).
    split; [done|]. assert (Hmono : forall i c c', chunks !! i = Some c -> chunks !! S i = Some c' -> c <= c') by (intros i c c' H1 H2; by apply (Hm i)).
    split; [done|].
    assert (Hmn : forall j i c c', i <= j -> chunks !! i = Some c -> chunks !! j = Some c' -> c <= c').
    { induction j as [|j IH]; intros i c c' Hij Hi Hj; [assert (i = 0) as -> by lia; naive_solver|].
      destruct (decide (i = S j)) as [->|]; [naive_solver|].
      destruct (lookup_lt_is_Some_2 chunks j) as [d Hd]; [apply lookup_lt_Some in Hj; lia|].
      pose proof (IH i c d ltac:(lia) Hi Hd). pose proof (Hmono j d c' Hd Hj). lia. }
    intros k Hk.
    assert (Hex : forall n c, chunks !! n = Some c -> k < c -> exists i c c', chunks !! i = Some c /\ chunks !! S i = Some c' /\ c <= k < c').
    { induction n as [|n IH]; intros c Hc Hkc; [rewrite Hh in Hc; injection Hc as <-; lia|].
      destruct (lookup_lt_is_Some_2 chunks n) as [d Hd]; [apply lookup_lt_Some in Hc; lia|].
      destruct (decide (k < d)); [by apply (IH d)|]. exists n, d, c. split; [done|]. split; [done|]. lia. }
    destruct (Hex _ _ Hlast ltac:(lia)) as (i & c & c' & Hi & Hi' & Hr). exists i, c, c'. split; [done|]. split; [done|]. split; [done|].
    intros j d d' Hj Hj' Hkd. destruct (lt_eq_lt_dec j i) as [[Hlt|]|Hlt]; [|done|].
    - pose proof (Hmn i (S j) d' c ltac:(lia) Hj' Hi). lia.
    - pose proof (Hmn j (S i) c' d ltac:(lia) Hi' Hj). lia.
  Qed.
  (** the load of a chunk without its first block (and, for the last chunk, without its last
      block) is at most the threshold nnz / (2 * workers); every chunk but the last reaches,
      together with the first block of the next one, more than the threshold; so there are
      at most [load / threshold] + 1 chunks *)
  Theorem C36_partition_load (A : blocked T) workers start end_ f : partition_input A workers start end_ f ->
    let threshold := bk_nnz A / (2 * workers) in
    exists chunks r, partition_blockrow A workers start end_ = Ok (chunks, r) /\
      (forall i c c', chunks !! i = Some c -> chunks !! S i = Some c' ->
         load f (S c) (if S (S i) =? length chunks then c' - 1 else c') <= threshold) /\
      (forall i c c', chunks !! i = Some c -> chunks !! S i = Some c' -> S (S i) < length chunks -> threshold < load f c (S c')) /\
      (length chunks - 2) * S threshold <= load f start end_.
  Proof.
    intros HA threshold. destruct (partition_run A workers start end_ f HA) as (chunks & Hrun & Hspec).
    pose proof Hspec as [Hh Hl Hlen Hm Hin He Hlo]. exists chunks, (length chunks). split; [done|].
    split; [|split].
    - intros i c c' Hi Hi'. rewrite load_sum. destruct (Nat.eqb_spec (S (S i)) (length chunks)) as [Heq|Hne].
      + by apply (He i).
      + apply (Hin i); [by split|]. apply lookup_lt_Some in Hi'. lia.
    - intros i c c' Hi Hi' Hlt. rewrite load_sum. destruct (Hlo i c c' ltac:(by split) Hlt) as [Hs _].
      eapply Nat.lt_le_trans; [exact Hs|]. apply sum_between_mono; [|lia]. destruct (i =? 0); lia.
    - rewrite load_sum. by apply partition_spec_count.
  Qed.
  (** for a whole matrix there are at most 2 * workers + 1 ... chunks in a block row *)
  Theorem C36_number_of_chunks (A : blocked T) workers start end_ f : partition_input A workers start end_ f ->
    load f start end_ <= bk_nnz A -> exists chunks r, partition_blockrow A workers start end_ = Ok (chunks, r) /\
      length chunks - 1 <= 2 * workers.
  Proof.
    intros HA Hle. pose proof HA as (W1 & _). destruct (partition_run A workers start end_ f HA) as (chunks & Hrun & Hspec).
    exists chunks, (length chunks). split; [done|]. pose proof (partition_spec_count _ _ _ _ _ Hspec) as Hc.
    rewrite <- load_sum in Hc. pose proof (Nat.mul_succ_div_gt (bk_nnz A) (2 * workers) ltac:(lia)) as Hd.
    generalize dependent (bk_nnz A / (2 * workers)). intros t _ Hc Hd.
    destruct (decide (length chunks - 2 < 2 * workers)) as [|Hge]; [lia|]. nia.
  Qed.
  (** the value returned is the number of boundaries, one more than the number of chunks *)
  Theorem C37_partition_return_refuted (A : blocked T) workers start end_ f : partition_input A workers start end_ f ->
    exists chunks, partition_blockrow A workers start end_ = Ok (chunks, length chunks) /\
      let number_of_chunks := length chunks - 1 in length chunks = number_of_chunks + 1.
  Proof.
    intros HA. destruct (partition_run A workers start end_ f HA) as (chunks & Hrun & [_ _ Hlen _ _ _ _]).
    exists chunks. split; [done|]. cbv zeta. lia.
  Qed.

  (** ** C38: the recursive kernel on block row bi, for any list of chunks that tiles the
      blocks of the block row: on every schedule the same y as in sequential execution, rows
      of other block rows unchanged, nothing but y allocated at the end *)
  Theorem C38_chunk_kernel B roff nbr coff nbc workers x y b bi chunks :
    blockable B roff nbr coff nbc -> workers_ok B workers -> c_cols B <= length x -> length y = c_rows B ->
    bi < nbr -> 2 * length chunks < itW ->
    exists A parts B', Coo_to_Csbr workers B (full roff) nbr (full coff) nbc = Ok (A, parts, B') /\
      forall from to, aget (sb_ptr A) bi = Ok from -> aget (sb_ptr A) (bi + 1) = Ok to ->
      2 <= length chunks -> nth 0 chunks 0 = from -> nth (length chunks - 1) chunks 0 = to ->
      (forall i, S i < length chunks -> nth i chunks 0 <= nth (S i) chunks 0) ->
      let p := spmv_chunk (length chunks) (csbr_view A) x chunks 0 (length chunks - 1) (nth (S bi) roff 0 - nth bi roff 0) b (nth bi roff 0) (temp_name b bi) in
      exists y', run p (heap_of b y) = Ok (tt, heap_of b y') /\ all_schedules p (heap_of b y) tt (heap_of b y') /\
        (forall i, ~ in_block roff bi i -> y' !! i = y !! i) /\
        (forall one : T, exact_arith T one -> forall i yi, in_block roff bi i -> y !! i = Some yi ->
           y' !! i = Some (sadd yi (dot (c_elems B) (c_cols B) x i))).
  Proof.
    destruct B as [rows cols E]. unfold c_nnz. cbn [c_rows c_cols c_elems].
    intros (Hne & HE & Hr & Hc & H1 & H2 & H3 & H4 & H5 & H6) (W1 & W2 & W3) Hx Hy Hbi Hlen. unfold c_nnz in *. cbn [c_rows c_cols c_elems] in *.
    destruct (Coo_to_Csbr_spec roff nbr rows coff nbc cols E Hr Hc HE Hne H1 H2 H3 H4 H5 H6 workers W1 W2 W3) as (parts & HA & Hg & _).
    eexists _, _, _. split; [exact HA|]. intros from to Hf Ht C1 C2 C3 C4. cbv zeta.
    cbn [csbr_matrix sb_ptr] in Hf, Ht. rewrite ptrs_get in Hf by lia. rewrite ptrs_get in Ht by lia.
    replace (bi + 1) with (S bi) in Ht by lia. injection Hf as <-. injection Ht as <-.
    set (M := csbr_view (csbr_matrix roff nbr rows coff nbc cols E)).
    set (G := fun k r => row_acc (blocks_at roff nbr coff nbc E (nth k (bids roff nbr coff nbc E) 0)) x (nth bi roff 0 + r)).
    set (n := nth (S bi) roff 0 - nth bi roff 0).
    assert (HG : forall k, cntlt (brs roff nbr coff nbc E) bi <= k < cntlt (brs roff nbr coff nbc E) (S bi) -> block_does M x k n (G k)).
    { intros k Hk. pose proof (brs_between _ (brs_sorted roff nbr coff nbc E) bi k ltac:(lia)) as Hbk.
      unfold brs in Hbk. rewrite list_lookup_fmap in Hbk. destruct (bids roff nbr coff nbc E !! k) as [id|] eqn:Hid; [|done]. injection Hbk as Hbk.
      unfold G. rewrite (nth_lookup_Some _ k 0 id Hid).
      assert (Hd : block_does M x k (rsz roff nbc id) (fun r => row_acc (blocks_at roff nbr coff nbc E id) x (ro roff nbc id + r))) by (by eapply csbr_block_does).
      unfold rsz, ro in Hd. rewrite Hbk in Hd. exact Hd. }
    assert (Htl : tiles chunks (cntlt (brs roff nbr coff nbc E) bi) (cntlt (brs roff nbr coff nbc E) (S bi))) by done.
    pose proof (performs_spmv_chunk M x chunks n G _ _ HG (fun i c => tiles_range _ _ _ i c Htl) Hlen (length chunks) 0 (length chunks - 1)
      b (0 + nth bi roff 0) (temp_name b bi) ltac:(lia) ltac:(lia) ltac:(lia) (temp_name_self b bi)) as Hp.
    pose proof (blocking_le _ _ _ (S bi) Hr ltac:(lia)) as L1. pose proof (blocking_mono _ _ _ bi (S bi) Hr ltac:(lia) ltac:(lia)) as L2.
    apply (performs_sub _ b 0 rows (nth bi roff 0) n) in Hp; [|unfold n; lia]. cbn [Nat.add] in Hp.
    clearbody M.
    match type of Hp with performs ?p _ _ _ ?π ?g => assert (Hp2 : performs p b 0 (length y) π g) by (rewrite Hy; exact Hp) end. clear Hp.
    pose proof (performs_vector _ b y _ _ Hp2 (temp_name_self b bi)) as Hall.
    eexists. split; [|split; [exact Hall|split]].
    - destruct Hp2 as [_ Hrun]. rewrite Hrun; [by rewrite hupd_heap_of|apply heap_of_vals|]. apply heap_of_nopriv, temp_name_self.
    - intros i Hi. rewrite list_lookup_imap. destruct (y !! i) as [yi|]; [|done]. cbn [fmap option_fmap option_map]. f_equal.
      apply decide_False. unfold in_block, n in *. lia.
    - intros one SR i yi Hi Hyi. rewrite list_lookup_imap, Hyi. cbn [fmap option_fmap option_map]. f_equal.
      unfold in_block in Hi. rewrite decide_True by (unfold n; lia).
      rewrite (chunk_val_exact one SR); [| |done|lia|lia|lia].
      + rewrite C2, C3. rewrite <- (row_acc_dot one SR rows E cols) by done.
        rewrite (row_acc_perm one SR E (isort (bykey col) E)) by (symmetry; apply isort_perm).
        assert (i < rows) by (apply lookup_lt_Some in Hyi; lia).
        rewrite <- (blocks_total roff nbr rows coff nbc cols E Hr Hc HE x i yi) by lia. unfold row_blocks.
        assert (Hbo : block_of roff nbr i = bi) by (by eapply block_of_unique).
        rewrite Hbo, cntlt_S. unfold G. replace (nth bi roff 0 + (i - nth bi roff 0)) with i by lia. do 2 f_equal. lia.
      + intros k z. unfold G. rewrite (row_acc_sum one SR _ x _ z), (row_acc_sum one SR _ x _ s0). f_equal.
        destruct SR as [A0 AC AA]. by rewrite A0.
  Qed.
End C28_C45.
