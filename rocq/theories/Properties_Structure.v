(** Properties_Structure.v: what the blocked constructors leave in memory (C28, C29), the
    partition of the whole matrix (C35), constant block ids (C14) and other statements that
    pin down fields the kernels alone do not observe. *)
From Verif Require Import DenseProof Cgbr3Proof Csbr3Chunk Bcsr Properties_Utils Properties_Simple Properties_Blocked Properties_Reuse Properties_Bcsr Properties_Cgbr.

Section positions.
  Context {T : Type}.
  Context (roff : list nat) (nbr rows : nat) (coff : list nat) (nbc cols : nat) (E : list (elem T)).
  Context (Hr : blocking roff nbr rows) (Hc : blocking coff nbc cols) (HE : in_range rows cols E).
  Notation E' := (bsorted roff nbr coff nbc E).
  Notation I := (bids roff nbr coff nbc E).
  Notation lc := (BlocksProof.loc roff coff nbc).

  Lemma bids_distinct : distinct_count (block_id roff nbr coff nbc <$> E) (length I).
  Proof.
    exists I. split; [apply increasing_NoDup, bids_sorted|]. split; [|done]. intros id. split.
    - intros (e & He & <-)%bids_elem. rewrite (bsorted_perm roff nbr coff nbc E) in He. unfold with_ids in He.
      apply elem_of_list_fmap in He as (e0 & -> & He0). apply elem_of_list_fmap. by exists e0.
    - intros Hid. apply elem_of_list_fmap in Hid as (e0 & -> & He0). apply (blk_in_bids roff nbr coff nbc E (set_blk (block_id roff nbr coff nbc e0) e0)).
      rewrite (bsorted_perm roff nbr coff nbc E). unfold with_ids. apply elem_of_list_fmap. by exists e0.
  Qed.
  (** element i of the sorted source, in the row pointers of its block *)
  Lemma position_in_block i e : E' !! i = Some e ->
    let s := cntlt (blk <$> E') (blk e) in
    let K := (fun e => row (lc e)) <$> blocks_at roff nbr coff nbc E (blk e) in
    s + cntlt K (row (lc e)) <= i < s + cntlt K (S (row (lc e))).
  Proof.
    intros He s K.
    pose proof (ksorted_position blk E' i e (bsorted_ksorted _ _ _ _ _) He) as Hp. fold s in Hp. rewrite cntlt_S in Hp. fold s in Hp.
    assert (Hg : blocks_at roff nbr coff nbc E (blk e) !! (i - s) = Some e).
    { unfold blocks_at. rewrite (group_slice blk E' (blk e) (bsorted_ksorted _ _ _ _ _)). fold s.
      rewrite slice_lookup by lia. by replace (s + (i - s)) with i by lia. }
    assert (HK : K = row <$> (lc <$> blocks_at roff nbr coff nbc E (blk e))) by (unfold K; by rewrite <- list_fmap_compose).
    pose proof (ksorted_position row (lc <$> blocks_at roff nbr coff nbc E (blk e)) (i - s) (lc e) (blocks_at_sorted _ _ _ _ _ _)) as Hq.
    rewrite <- HK in Hq. rewrite list_lookup_fmap, Hg in Hq. specialize (Hq eq_refl). lia.
  Qed.
End positions.

Section C28_C29.
  Context {T : Type} `{Scalar T} `{Widths}.
  Implicit Types (B : coo T) (E : list (elem T)) (roff coff : list nat).

  (** ** C28: what Coo_to_Csbr leaves in memory.  The source is reordered; its element i is at
      position i of the value and column arrays, in the slice its row has in the row pointers
      of block k, which lies in block row br and block column bc *)
  Theorem C28_csbr_structure B roff nbr coff nbc workers : blockable B roff nbr coff nbc -> workers_ok B workers ->
    exists A parts B', Coo_to_Csbr workers B (full roff) nbr (full coff) nbc = Ok (A, parts, B') /\
      sb_rows A = c_rows B /\ sb_cols A = c_cols B /\ sb_nnz A = c_nnz B /\ sb_blockrows A = nbr /\ sb_blockcols A = nbc /\
      sb_roff A = full roff /\ sb_coff A = full coff /\
      c_rows B' = c_rows B /\ c_cols B' = c_cols B /\ same_elements (c_elems B) (c_elems B') /\
      distinct_count (block_id roff nbr coff nbc <$> c_elems B) (sb_nnzblocks A) /\
      aget (sb_ptr A) 0 = Ok 0 /\ aget (sb_ptr A) nbr = Ok (sb_nnzblocks A) /\
      forall i e, c_elems B' !! i = Some e ->
        exists k br bc blk from to first last,
          br < nbr /\ bc < nbc /\ in_block roff br (row e) /\ in_block coff bc (col e) /\
          aget (sb_ptr A) br = Ok from /\ aget (sb_ptr A) (br + 1) = Ok to /\ from <= k < to /\
          aget (sb_ind A) k = Ok bc /\ aget (sb_blocks A) k = Ok blk /\
          cb_rows blk = nth (br + 1) roff 0 - nth br roff 0 /\
          aget (cb_ptr blk) (row e - nth br roff 0) = Ok first /\ aget (cb_ptr blk) (row e - nth br roff 0 + 1) = Ok last /\
          cb_pos blk + first <= i < cb_pos blk + last /\
          aget (sb_colind A) i = Ok (col e - nth bc coff 0) /\ aget (sb_val A) i = Ok (val e).
  Proof.
    destruct B as [rows cols E]. unfold c_nnz. cbn [c_rows c_cols c_elems].
    intros (Hne & HE & Hr & Hc & H1 & H2 & H3 & H4 & H5 & H6) (W1 & W2 & W3). unfold c_nnz in *. cbn [c_rows c_cols c_elems] in *.
    destruct (Coo_to_Csbr_spec roff nbr rows coff nbc cols E Hr Hc HE Hne H1 H2 H3 H4 H5 H6 workers W1 W2 W3) as (parts & HA & Hg & _).
    eexists _, _, _. split; [exact HA|]. unfold csbr_matrix.
    cbn [c_rows c_cols c_elems sb_rows sb_cols sb_nnz sb_blockrows sb_blockcols sb_roff sb_coff sb_nnzblocks sb_ptr sb_ind sb_blocks sb_colind sb_val].
    do 9 (split; [done|]). split; [unfold same_elements; symmetry; apply bsorted_coords|].
    split; [apply bids_distinct|]. split; [rewrite ptrs_get by lia; by rewrite cntlt_0|].
    split. { rewrite ptrs_get by lia. f_equal. rewrite cntlt_all by (by eapply brs_range). apply fmap_length. }
    intros i e He. assert (HeE : e ∈ bsorted roff nbr coff nbc E) by (by eapply elem_of_list_lookup_2).
    assert (HbI : blk e ∈ bids roff nbr coff nbc E) by (by apply blk_in_bids).
    apply elem_of_list_lookup in HbI as [k Hk].
    destruct (bsorted_inside roff nbr rows coff nbc cols E Hr Hc HE e HeE) as (B1 & B2 & B3 & B4).
    destruct (loc_inside roff nbr rows coff nbc cols E Hr Hc HE e HeE) as [L1 L2].
    pose proof (position_in_block roff nbr coff nbc E i e He) as Hpos. cbv zeta in Hpos.
    assert (Hrow : row (BlocksProof.loc roff coff nbc e) = row e - nth (blk e / nbc) roff 0) by done.
    assert (Hcol : col (BlocksProof.loc roff coff nbc e) = col e - nth (blk e mod nbc) coff 0) by done.
    assert (Hbr : brs roff nbr coff nbc E !! k = Some (blk e / nbc)) by (unfold brs; by rewrite list_lookup_fmap, Hk).
    destruct (ksorted_position (fun n => n) _ k _ (brs_sorted roff nbr coff nbc E) Hbr) as [P1 P2]. rewrite list_fmap_id in P1, P2.
    eexists k, (blk e / nbc), (blk e mod nbc), (csbr_blk_done roff nbr coff nbc E (blk e)), _, _, _, _.
    replace (blk e / nbc + 1) with (S (blk e / nbc)) by lia.
    split; [done|]. split; [done|]. split; [done|]. split; [done|].
    split; [apply ptrs_get; lia|]. split; [apply ptrs_get; lia|]. split; [done|].
    split; [rewrite aget_full; apply lget_some; by rewrite list_lookup_fmap, Hk|].
    split; [rewrite aget_full; apply lget_some; by rewrite list_lookup_fmap, Hk|].
    cbn [csbr_blk_done cb_rows cb_pos cb_ptr]. unfold rsz, ro in *. split; [done|]. rewrite Nat.add_1_r, <- Hrow.
    split; [apply ptrs_get; lia|]. split; [apply ptrs_get; lia|]. split; [exact Hpos|].
    split. { rewrite aget_full. apply lget_some. rewrite list_lookup_fmap, He. reflexivity. }
    rewrite aget_full. apply lget_some. by rewrite list_lookup_fmap, He.
  Qed.

  (** ** C29: the same for Csbr2, whose row pointers and column indices are absolute *)
  Theorem C29_csbr2_structure B roff nbr coff nbc : blockable B roff nbr coff nbc ->
    exists A B', Coo_to_Csbr2 B (full roff) nbr (full coff) nbc = Ok (A, B') /\
      s2_rows A = c_rows B /\ s2_cols A = c_cols B /\ s2_nnz A = c_nnz B /\ s2_blockrows A = nbr /\ s2_blockcols A = nbc /\
      s2_roff A = full roff /\ s2_coff A = full coff /\
      c_rows B' = c_rows B /\ c_cols B' = c_cols B /\ same_elements (c_elems B) (c_elems B') /\
      distinct_count (block_id roff nbr coff nbc <$> c_elems B) (s2_nnzblocks A) /\
      aget (s2_ptr A) 0 = Ok 0 /\ aget (s2_ptr A) nbr = Ok (s2_nnzblocks A) /\
      forall i e, c_elems B' !! i = Some e ->
        exists k br bc rp from to first last,
          br < nbr /\ bc < nbc /\ in_block roff br (row e) /\ in_block coff bc (col e) /\
          aget (s2_ptr A) br = Ok from /\ aget (s2_ptr A) (br + 1) = Ok to /\ from <= k < to /\
          aget (s2_rowptr A) k = Ok rp /\
          aget rp (row e - nth br roff 0) = Ok first /\ aget rp (row e - nth br roff 0 + 1) = Ok last /\ first <= i < last /\
          aget (s2_colind A) i = Ok (col e) /\ aget (s2_val A) i = Ok (val e).
  Proof.
    destruct B as [rows cols E]. unfold c_nnz. cbn [c_rows c_cols c_elems].
    intros (Hne & HE & Hr & Hc & H1 & H2 & H3 & H4 & H5 & H6). unfold c_nnz in *. cbn [c_rows c_cols c_elems] in *.
    eexists _, _. split; [by eapply Coo_to_Csbr2_spec|]. unfold csbr2_matrix.
    cbn [c_rows c_cols c_elems s2_rows s2_cols s2_nnz s2_blockrows s2_blockcols s2_roff s2_coff s2_nnzblocks s2_ptr s2_rowptr s2_colind s2_val].
    do 9 (split; [done|]). split; [unfold same_elements; symmetry; apply bsorted_coords|].
    split; [apply bids_distinct|]. split; [rewrite ptrs_get by lia; by rewrite cntlt_0|].
    split. { rewrite ptrs_get by lia. f_equal. rewrite cntlt_all by (by eapply brs_range). apply fmap_length. }
    intros i e He. assert (HeE : e ∈ bsorted roff nbr coff nbc E) by (by eapply elem_of_list_lookup_2).
    assert (HbI : blk e ∈ bids roff nbr coff nbc E) by (by apply blk_in_bids).
    apply elem_of_list_lookup in HbI as [k Hk].
    destruct (bsorted_inside roff nbr rows coff nbc cols E Hr Hc HE e HeE) as (B1 & B2 & B3 & B4).
    destruct (loc_inside roff nbr rows coff nbc cols E Hr Hc HE e HeE) as [L1 L2].
    pose proof (position_in_block roff nbr coff nbc E i e He) as Hpos. cbv zeta in Hpos.
    assert (Hrow : row (BlocksProof.loc roff coff nbc e) = row e - nth (blk e / nbc) roff 0) by done.
    assert (Hbr : brs roff nbr coff nbc E !! k = Some (blk e / nbc)) by (unfold brs; by rewrite list_lookup_fmap, Hk).
    destruct (ksorted_position (fun n => n) _ k _ (brs_sorted roff nbr coff nbc E) Hbr) as [P1 P2]. rewrite list_fmap_id in P1, P2.
    eexists k, (blk e / nbc), (blk e mod nbc), (c2_rp_done roff nbr coff nbc E (blk e)), _, _, _, _.
    replace (blk e / nbc + 1) with (S (blk e / nbc)) by lia.
    split; [done|]. split; [done|]. split; [done|]. split; [done|].
    split; [apply ptrs_get; lia|]. split; [apply ptrs_get; lia|]. split; [done|].
    split; [rewrite aget_full; apply lget_some; by rewrite list_lookup_fmap, Hk|].
    unfold c2_rp_done. unfold rsz, ro in *. rewrite Nat.add_1_r, <- Hrow.
    split; [rewrite aget_full; apply lget_some; rewrite fmap_seq_lookup by lia; done|].
    split; [rewrite aget_full; apply lget_some; rewrite fmap_seq_lookup by lia; done|].
    split; [exact Hpos|].
    split; rewrite aget_full; apply lget_some; by rewrite list_lookup_fmap, He.
  Qed.
End C28_C29.

(** ** C14: block ids for constant block sizes (used by Csbr3): the id tells row / size and
    column / size, and nothing else about the element changes *)
Theorem C14_const `{Widths} {T} (E : list (elem T)) (rsize csize nbr nbc rows columns : nat) :
  0 < rsize -> 0 < csize -> rows <= nbr * rsize -> columns <= nbc * csize -> in_range rows columns E -> nbr * nbc <= itW ->
  exists E', calculate_block_id_const E rsize csize nbc = Ok E' /\
    coords <$> E' = coords <$> E /\
    (forall e, e ∈ E' -> blk e / nbc = row e / rsize /\ blk e mod nbc = col e / csize /\ blk e < nbr * nbc) /\
    (forall e1 e2, e1 ∈ E' -> e2 ∈ E' -> (blk e1 = blk e2 <-> row e1 / rsize = row e2 / rsize /\ col e1 / csize = col e2 / csize)).
Proof.
  intros Hrs Hcs Hr Hc HE Hw.
  set (f := fun e : elem T => set_blk (row e / rsize * nbc + col e / csize) e).
  assert (Hin : forall e, e ∈ E -> row e / rsize < nbr /\ col e / csize < nbc).
  { intros e He. unfold in_range in HE. rewrite Forall_forall in HE. destruct (HE e He) as [H1 H2].
    split; apply Nat.div_lt_upper_bound; lia. }
  assert (Hlt : forall e, e ∈ E -> row e / rsize * nbc + col e / csize < nbr * nbc).
  { intros e He. destruct (Hin e He). nia. }
  assert (Hd : forall q r, r < nbc -> (q * nbc + r) / nbc = q /\ (q * nbc + r) mod nbc = r).
  { intros q r Hq. rewrite (Nat.add_comm (q * nbc)), Nat.div_add, Nat.mod_add by lia. rewrite Nat.div_small, Nat.mod_small by done. done. }
  exists (f <$> E). split; [|split; [|split]].
  - unfold calculate_block_id_const.
    erewrite <- (map_loop (fun e => br ← div_ (row e) rsize; bc ← div_ (col e) csize; Ok (set_blk (wadd (wmul br nbc) bc) e))).
    + apply for_n_ext. intros i s _. destruct (lget s i) as [e| | |]; try done. cbn [mbind outcome_bind].
      destruct (div_ (row e) rsize) as [br| | |]; try done. cbn [mbind outcome_bind].
      destruct (div_ (col e) csize) as [bc| | |]; try done.
    + intros e He. rewrite !div_ok by done. cbn [mbind outcome_bind]. unfold f. do 2 f_equal.
      specialize (Hlt e He). generalize dependent (row e / rsize). generalize dependent (col e / csize). intros c r Hrc.
      unfold wadd, wmul. assert (r * nbc < itW) by lia. rewrite (wrap_small (r * nbc)) by done. apply wrap_small. lia.
  - rewrite <- list_fmap_compose. apply list_fmap_ext. by intros i e _.
  - intros e (e0 & -> & He0)%elem_of_list_fmap. unfold f. cbn [blk row col set_blk]. destruct (Hin e0 He0) as [H1 H2]. split; [|split].
    + by apply Hd.
    + by apply Hd.
    + by apply Hlt.
  - intros e1 e2 (a1 & -> & H1)%elem_of_list_fmap (a2 & -> & H2)%elem_of_list_fmap. unfold f. cbn [blk row col set_blk].
    destruct (Hin a1 H1), (Hin a2 H2). split; [|by intros [-> ->]]. intros Heq.
    destruct (Hd (row a1 / rsize) (col a1 / csize)) as [D1 D2]; [done|]. destruct (Hd (row a2 / rsize) (col a2 / csize)) as [D3 D4]; [done|].
    rewrite Heq in D1, D2. split; congruence.
Qed.
(** a block size of zero divides by zero as soon as there is an element *)
Theorem C14_const_zero `{Widths} {T} (E : list (elem T)) (rsize csize nbc : nat) : E <> [] -> rsize = 0 \/ csize = 0 ->
  calculate_block_id_const E rsize csize nbc = Undef DivByZero.
Proof.
  intros Hne Hz. destruct E as [|e E]; [done|]. unfold calculate_block_id_const, for_range. cbn [length Nat.sub for_n lget lookup list_lookup mbind outcome_bind].
  unfold div_. destruct (decide (rsize = 0)); [done|]. cbn [mbind outcome_bind]. by rewrite decide_True by lia.
Qed.

Example C14_const_ex : let W := {| itW := 100; sitW := 10 |} in let E := [Elem 4 3 1%Z 0; Elem 1 6 2%Z 0] in
  in_range 5 7 E /\ calculate_block_id_const E 2 3 3 = Ok [Elem 4 3 1%Z 7; Elem 1 6 2%Z 2].
Proof. cbv zeta. split; [repeat constructor|done]. Qed.

Section C35_C24.
  Context {T : Type} `{Scalar T} `{Widths}.
  Implicit Types (B : coo T) (E : list (elem T)) (roff coff : list nat).

  (** ** C35: the partition of a whole matrix has one list of chunk boundaries per block row;
      list br starts at the first block of block row br, ends after its last block and does
      not decrease; so every block lies in exactly one chunk of its block row *)
  Theorem C35_whole_matrix B roff nbr coff nbc workers : blockable B roff nbr coff nbc -> workers_ok B workers ->
    exists A parts B', Coo_to_Csbr workers B (full roff) nbr (full coff) nbc = Ok (A, parts, B') /\
      length parts = nbr /\
      forall br chunks, parts !! br = Some chunks ->
        exists from to, aget (sb_ptr A) br = Ok from /\ aget (sb_ptr A) (br + 1) = Ok to /\
          chunks !! 0 = Some from /\ last chunks = Some to /\ 2 <= length chunks /\
          (forall i c c', chunks !! i = Some c -> chunks !! S i = Some c' -> c <= c').
  Proof.
    destruct B as [rows cols E]. unfold c_nnz. cbn [c_rows c_cols c_elems].
    intros (Hne & HE & Hr & Hc & H1 & H2 & H3 & H4 & H5 & H6) (W1 & W2 & W3). unfold c_nnz in *. cbn [c_rows c_cols c_elems] in *.
    destruct (Coo_to_Csbr_spec roff nbr rows coff nbc cols E Hr Hc HE Hne H1 H2 H3 H4 H5 H6 workers W1 W2 W3) as (parts & HA & Hg & _ & Hs).
    eexists _, _, _. split; [exact HA|]. destruct Hg as [Hlen _]. split; [done|]. unfold csbr_matrix. cbn [sb_ptr].
    intros br chunks Hbr. pose proof (lookup_lt_Some _ _ _ Hbr) as Hlt. destruct (Hs br chunks Hbr) as [P1 P2 P3 P4 _ _ _].
    eexists _, _. split; [apply ptrs_get; lia|]. split; [apply ptrs_get; lia|]. rewrite Nat.add_1_r.
    split; [done|]. split; [done|]. split; [lia|]. intros i c c' Hi Hi'. by apply (P4 i).
  Qed.
  (** ** C36: its chunks carry at most about nnz / (2 * workers) elements, counted in the
      elements [load k] of the blocks *)
  Theorem C36_whole_matrix B roff nbr coff nbc workers : blockable B roff nbr coff nbc -> workers_ok B workers ->
    exists A parts B', Coo_to_Csbr workers B (full roff) nbr (full coff) nbc = Ok (A, parts, B') /\
      exists load : nat -> nat,
        (forall k blk, aget (sb_blocks A) k = Ok blk -> aget (cb_ptr blk) (cb_rows blk) = Ok (load k)) /\
        sum_list_with load (seq 0 (sb_nnzblocks A)) = c_nnz B /\
        forall br chunks, parts !! br = Some chunks ->
          length chunks - 1 <= 2 * workers /\
          forall i c c', chunks !! i = Some c -> chunks !! S i = Some c' ->
            sum_list_with load (seq (S c) ((if S (S i) =? length chunks then c' - 1 else c') - S c)) <= c_nnz B / (2 * workers).
  Proof.
    destruct B as [rows cols E]. unfold c_nnz. cbn [c_rows c_cols c_elems].
    intros (Hne & HE & Hr & Hc & H1 & H2 & H3 & H4 & H5 & H6) (W1 & W2 & W3). unfold c_nnz in *. cbn [c_rows c_cols c_elems] in *.
    destruct (Coo_to_Csbr_spec roff nbr rows coff nbc cols E Hr Hc HE Hne H1 H2 H3 H4 H5 H6 workers W1 W2 W3) as (parts & HA & Hg & _ & Hs).
    eexists _, _, _. split; [exact HA|]. destruct Hg as [Hlen _]. unfold csbr_matrix. cbn [sb_blocks sb_nnzblocks].
    set (f := fun k => length (blocks_at roff nbr coff nbc E (nth k (bids roff nbr coff nbc E) 0))).
    assert (Hsum : forall n a, sumf f a n = sum_list_with f (seq a n)).
    { induction n as [|n IH]; intros a; [done|]. cbn [seq sum_list_with sumf]. by rewrite IH. }
    exists f. split; [|split].
    - intros k blk Hk. 
      destruct (bids roff nbr coff nbc E !! k) as [id|] eqn:Hid.
      2:{ rewrite aget_full in Hk. unfold lget in Hk. by rewrite list_lookup_fmap, Hid in Hk. }
      pose proof (csbr_nonzeros roff nbr rows coff nbc cols E Hr Hc HE H1 H2 H4 H5 H6 k id Hid) as Hn. unfold csbr_view, csbr_matrix in Hn.
      cbn [bk_nonzeros sb_blocks] in Hn. rewrite Hk in Hn. cbn [mbind outcome_bind] in Hn. rewrite Hn. unfold f. by rewrite (nth_lookup_Some _ k 0 id Hid).
    - rewrite <- Hsum. pose proof (blocks_sum roff nbr coff nbc E) as Hb. unfold sum_between in Hb. by rewrite Nat.sub_0_r in Hb.
    - intros br chunks Hbr. pose proof (Hs br chunks Hbr) as Hp. split.
      + pose proof (partition_spec_count _ _ _ _ _ Hp) as Hcnt.
        pose proof (Nat.mul_succ_div_gt (length E) (2 * workers) ltac:(lia)) as Hd.
        assert (Hle : sum_between f (cntlt (brs roff nbr coff nbc E) br) (cntlt (brs roff nbr coff nbc E) (S br)) <= length E).
        { rewrite <- (blocks_sum roff nbr coff nbc E). apply sum_between_mono; [lia|]. etrans; [apply cntlt_le|]. unfold brs. by rewrite fmap_length. }
        fold f in Hcnt. generalize dependent (length E / (2 * workers)). intros t Hp' Hcnt Hd.
        destruct (decide (length chunks - 2 < 2 * workers)) as [|Hge]; [lia|]. nia.
      + destruct Hp as [_ _ _ _ Hin He _]. intros i c c' Hi Hi'. rewrite <- Hsum. fold (sum_between f (S c) c').
        destruct (Nat.eqb_spec (S (S i)) (length chunks)) as [Heq|Hneq].
        * by apply (He i).
        * apply (Hin i); [by split|]. apply lookup_lt_Some in Hi'. lia.
  Qed.

  (** ** C24: the constructor's check does not reject sizes whose product overflows the index
      type: it then writes outside the array; a matrix with rows but no columns is refused *)
  Theorem C24_overflow_refuted (h : nat) (v : T) : itW = 2 * h -> 2 <= h ->
    let E := [Elem 0 2 v 0] in in_range 2 (h + 1) E /\ 2 < itW /\ h + 1 < itW /\
      Coo_to_Dense E 2 (h + 1) = Undef OutOfBounds.
  Proof.
    intros Hw Hh E. split; [repeat constructor; cbn; lia|]. split; [lia|]. split; [lia|].
    assert (Hm : wmul 2 (h + 1) = 2).
    { unfold wmul, wrap. rewrite Hw. replace (2 * (h + 1)) with (2 + 1 * (2 * h)) by lia. rewrite Nat.mod_add by lia. apply Nat.mod_small. lia. }
    unfold Coo_to_Dense, dense_fill. rewrite Hm. cbn [Nat.leb assert_ mbind outcome_bind].
    unfold for_range, E. cbn [length Nat.sub for_n lget lookup list_lookup mbind outcome_bind row col val].
    assert (wadd (wmul 0 (h + 1)) 2 = 2) as ->.
    { unfold wadd, wmul, wrap. rewrite Nat.mul_0_l, Nat.mod_0_l by lia. apply Nat.mod_small. lia. }
    done.
  Qed.
  Theorem C24_no_columns E (rows : nat) : 0 < rows -> 0 < itW -> Coo_to_Dense E rows 0 = Abort.
  Proof.
    intros Hr Hw. unfold Coo_to_Dense, wmul. rewrite Nat.mul_0_r. rewrite wrap_small by done.
    rewrite (proj2 (Nat.leb_gt rows 0)) by lia. done.
  Qed.
End C35_C24.

(** ** C32: when every block has an element and the uninitialised variable happens to hold a
    block number, the constructor ends normally with the right blocks: element i of the sorted
    source is at position i, in the slice of its row in the row pointers of block number
    br * blockcols + bc *)
Section C32.
  Context {T : Type} `{Scalar T} `{Widths}.
  Implicit Types (B : coo T) (E l : list (elem T)) (e : elem T) (roff coff : list nat).

  Lemma lset_table {A} (f g : nat -> A) n i a : i < n -> g i = a -> (forall j, j < n -> j <> i -> g j = f j) ->
    lset (f <$> seq 0 n) i a = Ok (g <$> seq 0 n).
  Proof.
    intros Hi <- Hg. unfold lset. rewrite decide_True by (by rewrite fmap_length, seq_length). f_equal. apply list_eq. intros j.
    destruct (decide (j = i)) as [->|Hj].
    - rewrite list_lookup_insert by (by rewrite fmap_length, seq_length). by rewrite list_lookup_fmap, lookup_seq_lt.
    - rewrite list_lookup_insert_ne by done. rewrite !list_lookup_fmap. destruct (decide (j < n)).
      + rewrite !lookup_seq_lt by done. cbn. by rewrite Hg.
      + by rewrite lookup_seq_ge by lia.
  Qed.
  Lemma lget_table {A} (f : nat -> A) n i : i < n -> lget (f <$> seq 0 n) i = Ok (f i).
  Proof. intros Hi. apply lget_some. by rewrite list_lookup_fmap, lookup_seq_lt. Qed.

  Section scan.
    Context (roff : list nat) (nbr rows : nat) (coff : list nat) (nbc cols : nat) (E : list (elem T)).
    Context (Hr : blocking roff nbr rows) (Hc : blocking coff nbc cols) (HE : in_range rows cols E).
    Context (Hne : E <> []) (Hids : nbr * nbc < itW).
    Context (Hrows : rows + 1 < itW) (Hcols : cols < itW) (Hnnz : length E < itW).
    Context (base : nat -> bblock).
    Notation E' := (bsorted roff nbr coff nbc E).
    Notation lc := (BlocksProof.loc roff coff nbc).

    Definition bb_state l (id : nat) : bblock :=
      if decide (id ∈ blk <$> l) then
        BBlock (Some (rsz roff nbc id)) (Some (cntlt (blk <$> E') id))
          (Some (full (counters ((fun e => row (lc e)) <$> group blk id l) (rsz roff nbc id))))
      else base id.
    Definition bcsr_inv l (st : bcsr_st (T := T)) : Prop :=
      st = (geo roff coff nbc <$> last (blk <$> l), bb_state l <$> seq 0 (nbr * nbc),
            part ((fun e => col (lc e)) <$> l) (length E), part (val <$> l) (length E)).

    Lemma bcsr_add_step l e r (f : nat -> bblock) (K : list nat) : E' = l ++ e :: r ->
      blk e < nbr * nbc -> length K <= length l ->
      f (blk e) = BBlock (Some (rsz roff nbc (blk e))) (Some (cntlt (blk <$> E') (blk e))) (Some (full (counters K (rsz roff nbc (blk e))))) ->
      K = (fun e => row (lc e)) <$> group blk (blk e) l ->
      (forall j, j <> blk e -> f j = bb_state l j) ->
      wp (bcsr_add (length l) e (Some (geo roff coff nbc (blk e)), f <$> seq 0 (nbr * nbc),
        part ((fun e => col (lc e)) <$> l) (length E), part (val <$> l) (length E))) (bcsr_inv (l ++ [e])).
    Proof.
      intros HE' Hb HKl Hf HK Hfj. destruct (prefix_facts roff nbr coff nbc E l e r HE') as (He & Hl & _ & _ & _).
      unfold bcsr_add. cbn [use mbind outcome_bind].
      rewrite (check_inside_ok roff nbr rows coff nbc cols E Hr Hc HE e He) by lia. cbn [mbind outcome_bind].
      rewrite lget_table by done. rewrite Hf. cbn [mbind outcome_bind bb_ptr bb_rows bb_pos use]. unfold geo. cbn [g_ro g_co].
      destruct (wsub_row roff nbr rows coff nbc cols E Hr Hc HE e He Hrows) as [-> _].
      rewrite (wsub_col roff nbr rows coff nbc cols E Hr Hc HE e He) by lia.
      destruct (loc_inside _ _ _ _ _ _ _ Hr Hc HE e He) as [Hin1 Hin2].
      rewrite incr_step by (unfold BlocksProof.loc; cbn [row]; lia). cbn [mbind outcome_bind].
      rewrite (lset_table f (bb_state (l ++ [e]))); [|done| |].
      - cbn [mbind outcome_bind].
        pose proof (part_set ((fun e => col (lc e)) <$> l) (length E) (col (lc e))) as Hp1.
        rewrite fmap_length in Hp1. rewrite Hp1 by lia. cbn [mbind outcome_bind].
        pose proof (part_set (val <$> l) (length E) (val e)) as Hp2. rewrite fmap_length in Hp2. rewrite Hp2 by lia.
        cbn [mbind outcome_bind wp]. unfold bcsr_inv. rewrite !fmap_app. cbn [fmap list_fmap]. by rewrite last_snoc.
      - unfold bb_state. rewrite decide_True by (rewrite fmap_app; set_solver). rewrite group_snoc, Nat.eqb_refl, fmap_app. by subst K.
      - intros j _ Hj. rewrite Hfj by done. unfold bb_state. rewrite group_snoc, (proj2 (Nat.eqb_neq (blk e) j)) by done.
        rewrite fmap_app. cbn [fmap list_fmap]. destruct (decide (j ∈ blk <$> l)) as [Hjl|Hjl].
        + rewrite decide_True by set_solver. done.
        + rewrite decide_False by set_solver. done.
    Qed.
    Lemma bcsr_scan :
      wp (block_scan (fun _ i id st => bcsr_new (full roff) (full coff) nbc i id st) (fun _ i e st => bcsr_add i e st) E'
        (None, base <$> seq 0 (nbr * nbc), new_arr (length E), new_arr (length E))) (bcsr_inv E').
    Proof.
      apply block_scan_spec.
      - apply bsorted_ksorted.
      - eapply blk_bound, numbered_small; eassumption.
      - by rewrite bsorted_length.
      - unfold bcsr_inv. rewrite <- !part_nil. done.
      - intros l e s [r HE'] Hks Hl ->. destruct (prefix_facts roff nbr coff nbc E l e r HE') as (He & Hll & Hkl & Hkn & _).
        pose proof (blk_in_bids roff nbr coff nbc E e He) as Hid.
        destruct (bids_range _ _ _ _ _ _ _ Hr Hc HE _ Hid) as (Hid1 & Hid2 & Hid3 & Hid4).
        destruct (geometry_range _ _ _ _ _ _ _ Hr Hc HE _ Hid) as (G1 & _).
        destruct (per_block_new blk (fun _ _ => 0) l e Hks Hl) as [_ Hlt].
        unfold bcsr_new. rewrite (block_geometry_ok roff nbr rows coff nbc cols E Hr Hc HE _ Hid) by lia. cbn [mbind outcome_bind].
        assert (wadd (g_rs (geo roff coff nbc (blk e))) 1 = rsz roff nbc (blk e) + 1) as ->.
        { unfold wadd, geo. cbn [g_rs]. apply wrap_small. lia. }
        change (g_rs (geo roff coff nbc (blk e))) with (rsz roff nbc (blk e)).
        set (NB := BBlock (Some (rsz roff nbc (blk e))) (Some (length l)) (Some (new_arr0 0 (rsz roff nbc (blk e) + 1)))).
        set (f := fun j => if decide (j = blk e) then NB else bb_state l j).
        rewrite (lset_table (bb_state l) f); [|done|unfold f; by rewrite decide_True|intros j _ Hj; unfold f; by rewrite decide_False].
        cbn [mbind outcome_bind wp].
        assert (Hgr : group blk (blk e) l = []).
        { apply group_none. intros (e0 & Heq & He0)%elem_of_list_fmap. rewrite Forall_forall in Hlt. specialize (Hlt e0 He0). lia. }
        apply (bcsr_add_step l e r f []); try done.
        + cbn; lia.
        + unfold f. rewrite decide_True by done. unfold NB. rewrite (pos_new roff nbr coff nbc E l e r HE' Hlt), counters_nil. by rewrite Nat.add_1_r.
        + by rewrite Hgr.
        + intros j Hj. unfold f. by rewrite decide_False.
      - intros l e s [r HE'] Hks Hl ->. destruct (prefix_facts roff nbr coff nbc E l e r HE') as (He & Hll & Hkl & Hkn & _).
        pose proof (blk_in_bids roff nbr coff nbc E e He) as Hid.
        destruct (bids_range _ _ _ _ _ _ _ Hr Hc HE _ Hid) as (Hid1 & _).
        rewrite Hl. cbn [fmap option_fmap option_map].
        apply (bcsr_add_step l e r (bb_state l) ((fun e => row (lc e)) <$> group blk (blk e) l)); try done.
        + rewrite fmap_length. apply group_length.
        + unfold bb_state. rewrite decide_True; [done|]. apply last_Some_elem_of. exact Hl.
    Qed.
  End scan.

  Theorem C32_bcsr_construction (v : nat) B roff nbr coff nbc : blockable B roff nbr coff nbc -> v < nbr * nbc ->
    (forall id, id < nbr * nbc -> exists e, e ∈ c_elems B /\ block_id roff nbr coff nbc e = id) ->
    exists A B', Coo_to_Bcsr (Some v) B (full roff) nbr (full coff) nbc = Ok (A, B') /\
      bs_rows _ A = c_rows B /\ bs_cols _ A = c_cols B /\ bs_nnz _ A = c_nnz B /\ bs_blockrows _ A = nbr /\ bs_blockcols _ A = nbc /\
      bs_nnzblocks A = nbr * nbc /\ bs_roff _ A = full roff /\ bs_coff _ A = full coff /\
      same_elements (c_elems B) (c_elems B') /\
      forall i e, c_elems B' !! i = Some e ->
        exists br bc blk pos rp first last,
          br < nbr /\ bc < nbc /\ in_block roff br (row e) /\ in_block coff bc (col e) /\
          bs_blocks A !! (br * nbc + bc) = Some blk /\
          bb_rows blk = Some (nth (br + 1) roff 0 - nth br roff 0) /\ bb_pos blk = Some pos /\ bb_ptr blk = Some rp /\
          aget rp (row e - nth br roff 0) = Ok first /\ aget rp (row e - nth br roff 0 + 1) = Ok last /\
          pos + first <= i < pos + last /\
          aget (bs_colind _ A) i = Ok (col e - nth bc coff 0) /\ aget (bs_val _ A) i = Ok (val e).
  Proof.
    destruct B as [rows cols E]. intros HB Hv Hall. cbn [c_elems] in Hall.
    pose proof HB as (Hne & HE & Hr & Hc & H1 & H2 & _ & H4 & H5 & H6). unfold c_nnz in *. cbn [c_rows c_cols c_elems] in *.
    set (E' := bsorted roff nbr coff nbc E) in *. set (I := bids roff nbr coff nbc E) in *.
    assert (HinI : forall id, id ∈ I <-> id < nbr * nbc).
    { intros id. split; [intros Hid; by destruct (bids_range _ _ _ _ _ _ _ Hr Hc HE id Hid)|].
      intros Hid. destruct (Hall id Hid) as (e & He & <-). apply (blk_in_bids roff nbr coff nbc E (set_blk (block_id roff nbr coff nbc e) e)).
      rewrite (bsorted_perm roff nbr coff nbc E). unfold with_ids. apply elem_of_list_fmap. by exists e. }
    assert (HlenI : length I = nbr * nbc).
    { rewrite <- (seq_length (nbr * nbc) 0). apply Permutation_length, NoDup_Permutation; [apply increasing_NoDup, bids_sorted|apply NoDup_seq|].
      intros id. rewrite HinI, elem_of_seq. lia. }
    assert (H3 : nbr * nbc < itW) by (pose proof (bids_length roff nbr coff nbc E) as Hbl; change (length I <= length E) in Hbl; lia).
    destruct (bcsr_prefix None _ _ _ _ _ _ _ HB H3) as (Hpos & Hw & P1 & P2 & P3 & P4). cbn [c_rows c_cols c_elems] in *. fold E' I in P2, P3.
    set (base := fun id => if decide (id = v) then BBlock (Some 0) None None else BBlock None None None).
    set (done_ := fun id => BBlock (Some (rsz roff nbc id)) (Some (cntlt (blk <$> E') id))
      (Some (full (ptrs ((fun e => row (BlocksProof.loc roff coff nbc e)) <$> blocks_at roff nbr coff nbc E id) (rsz roff nbc id))))).
    exists (Bcsr rows cols (length E) nbr nbc (length I) (full roff) (full coff) (done_ <$> seq 0 (nbr * nbc))
      (full ((fun e => col (BlocksProof.loc roff coff nbc e)) <$> E')) (full (val <$> E'))), (Coo rows cols E').
    split.
    { unfold Coo_to_Bcsr. cbn [c_elems c_rows c_cols]. rewrite P1. cbn [mbind outcome_bind]. fold E' in P2, P3. rewrite P2. cbn [mbind outcome_bind].
      rewrite P3. cbn [mbind outcome_bind]. rewrite P4. cbn [mbind outcome_bind]. rewrite Hw. cbn [use mbind outcome_bind].
      match goal with |- context [for_range 0 (nbr * nbc) ?f (replicate (nbr * nbc) ?a)] =>
        assert (Hini : for_range 0 (nbr * nbc) f (replicate (nbr * nbc) a) = Ok (base <$> seq 0 (nbr * nbc))) end.
      { apply wp_eq. eapply wp_mono; [apply (wp_for_range (fun i bs =>
          bs = (fun id => if decide (id = v /\ 0 < i) then BBlock (Some 0) None None else BBlock None None None) <$> seq 0 (nbr * nbc)))|].
        - lia.
        - apply list_eq. intros j. rewrite list_lookup_fmap. destruct (decide (j < nbr * nbc)).
          + rewrite lookup_replicate_2, lookup_seq_lt by done. cbn. rewrite decide_False by lia. done.
          + rewrite lookup_seq_ge by lia. apply lookup_replicate_None. lia.
        - intros i bs Hi ->. rewrite lget_table by done. cbn [mbind outcome_bind].
          erewrite lset_table; [reflexivity|done| |].
          + cbv beta. rewrite decide_True by (split; [done|lia]). by destruct (decide _).
          + intros j Hj Hjv. cbv beta. rewrite !decide_False by tauto. done.
        - intros bs ->. apply list_fmap_ext. intros i id _. unfold base. destruct (decide (id = v)); [rewrite decide_True by lia|rewrite decide_False by tauto]; done. }
      rewrite Hini. clear Hini. cbn [mbind outcome_bind].
      pose proof (bcsr_scan roff nbr rows coff nbc cols E Hr Hc HE Hne H3 H4 H5 H6 base) as Hscan.
      unfold c_nnz. cbn [c_elems].
      apply wp_exists in Hscan as (st & Hst & ->). fold E' in Hst. rewrite Hst. clear Hst. cbn [mbind outcome_bind].
      rewrite !(part_full_len _ (length E)) by (by rewrite fmap_length; apply bsorted_length).
      fold E'. rewrite HlenI.
      match goal with |- context [for_range 0 (nbr * nbc) ?f ?l] => assert (Hfin : for_range 0 (nbr * nbc) f l = Ok (done_ <$> seq 0 (nbr * nbc))) end.
      { apply wp_eq. eapply wp_mono; [apply (wp_for_range (fun i bs =>
          bs = (fun id => if decide (id < i) then done_ id else bb_state roff nbr coff nbc E base E' id) <$> seq 0 (nbr * nbc)))|].
        - lia.
        - apply list_fmap_ext. intros i id _. by rewrite decide_False by lia.
        - intros i bs Hi ->. rewrite lget_table by lia. cbv beta. rewrite decide_False by lia. cbn [mbind outcome_bind].
          assert (HiI : i ∈ I) by (apply HinI; lia). destruct (bids_elem _ _ _ _ _ _ HiI) as (e & He & Hei).
          assert (Hbb : bb_state roff nbr coff nbc E base E' i = BBlock (Some (rsz roff nbc i)) (Some (cntlt (blk <$> E') i))
            (Some (full (counters ((fun e => row (BlocksProof.loc roff coff nbc e)) <$> group blk i E') (rsz roff nbc i))))).
          { unfold bb_state. by rewrite decide_True by (apply elem_of_list_fmap; eauto). }
          rewrite Hbb. cbn [bb_rows bb_ptr bb_pos use mbind outcome_bind].
          destruct (loc_inside _ _ _ _ _ _ _ Hr Hc HE e He) as [Hin1 _]. rewrite Hei in Hin1.
          rewrite (proj2 (Nat.eqb_neq (rsz roff nbc i) 0)) by lia.
          assert (Hgl : length (group blk i E') <= length E) by (etrans; [apply group_length|]; unfold E'; by rewrite bsorted_length).
          pose proof (prefix_sum_spec ((fun e => row (BlocksProof.loc roff coff nbc e)) <$> group blk i E') (rsz roff nbc i)) as Hps.
          rewrite fmap_length in Hps. specialize (Hps ltac:(lia)). unfold prefix_sum in Hps. rewrite Hps. cbn [mbind outcome_bind].
          erewrite lset_table; [reflexivity|lia| |].
          + cbv beta. rewrite decide_True by lia. done.
          + intros j Hj Hji. cbv beta. destruct (decide (j < i)); [rewrite decide_True by lia|rewrite decide_False by lia]; done.
        - intros bs ->. apply list_fmap_ext. intros i id Hid. apply elem_of_list_lookup_2, elem_of_seq in Hid. by rewrite decide_True by lia. }
      rewrite Hfin. done. }
    cbn [c_rows c_cols c_elems bs_rows bs_cols bs_nnz bs_blockrows bs_blockcols bs_nnzblocks bs_roff bs_coff bs_blocks bs_colind bs_val].
    do 5 (split; [done|]). split; [done|]. split; [done|]. split; [done|]. split; [unfold same_elements; symmetry; apply bsorted_coords|].
    intros i e He. assert (HeE : e ∈ E') by (by eapply elem_of_list_lookup_2).
    assert (HbI : blk e < nbr * nbc) by (apply HinI; by apply blk_in_bids).
    destruct (bsorted_inside roff nbr rows coff nbc cols E Hr Hc HE e HeE) as (B1 & B2 & B3 & B4).
    destruct (loc_inside roff nbr rows coff nbc cols E Hr Hc HE e HeE) as [L1 L2].
    pose proof (position_in_block roff nbr coff nbc E i e He) as Hps. cbv zeta in Hps.
    assert (Hrow : row (BlocksProof.loc roff coff nbc e) = row e - nth (blk e / nbc) roff 0) by done.
    assert (Hdm : blk e / nbc * nbc + blk e mod nbc = blk e).
    { symmetry. rewrite (Nat.mul_comm _ nbc). apply Nat.div_mod. lia. }
    eexists (blk e / nbc), (blk e mod nbc), (done_ (blk e)), _, _, _, _. rewrite Hdm.
    replace (blk e / nbc + 1) with (S (blk e / nbc)) by lia.
    split; [done|]. split; [done|]. split; [done|]. split; [done|].
    split; [by rewrite list_lookup_fmap, lookup_seq_lt|].
    split; [done|]. split; [reflexivity|]. split; [reflexivity|]. unfold rsz, ro in *. rewrite Nat.add_1_r, <- Hrow.
    split; [apply ptrs_get; lia|]. split; [apply ptrs_get; lia|]. split; [exact Hps|].
    split. { rewrite aget_full. apply lget_some. rewrite list_lookup_fmap, He. reflexivity. }
    rewrite aget_full. apply lget_some. by rewrite list_lookup_fmap, He.
  Qed.
End C32.

Section C33.
  Context {T : Type} `{Scalar T} `{Widths}.
  Implicit Types (B : coo T) (E : list (elem T)) (roff coff : list nat).
  (** a list of chunk boundaries per block row, each tiling the blocks of the block row *)
  Definition tiles_matrix (ptr : arr nat) (nbr : nat) (parts : list (list nat)) : Prop :=
    length parts = nbr /\
    forall br chunks, parts !! br = Some chunks ->
      exists from to, aget ptr br = Ok from /\ aget ptr (br + 1) = Ok to /\
        chunks !! 0 = Some from /\ last chunks = Some to /\ 2 <= length chunks /\
        (forall i c c', chunks !! i = Some c -> chunks !! S i = Some c' -> c <= c').
  Lemma good_tiles ptr nbr K parts : ptr = full (ptrs K nbr) -> good_partition nbr K parts -> tiles_matrix ptr nbr parts.
  Proof.
    intros -> [Hlen Hg]. split; [done|]. intros br chunks Hbr. pose proof (lookup_lt_Some _ _ _ Hbr) as Hlt.
    destruct (Hg br chunks Hbr) as [(T1 & T2 & T3 & T4) _].
    eexists _, _. split; [apply ptrs_get; lia|]. split; [apply ptrs_get; lia|]. rewrite Nat.add_1_r.
    assert (Hn : forall i, i < length chunks -> chunks !! i = Some (nth i chunks 0)) by (intros i Hi; by apply nth_some).
    split; [rewrite Hn by lia; by rewrite T2|]. split; [rewrite last_lookup; replace (pred (length chunks)) with (length chunks - 1) by lia; rewrite Hn by lia; by rewrite T3|].
    split; [done|]. intros i c c' Hi Hi'. pose proof (lookup_lt_Some _ _ _ Hi') as Hl. rewrite Hn in Hi, Hi' by lia. injection Hi as <-. injection Hi' as <-. by apply T4.
  Qed.
  (** ** C33: the balance test of Cgbr sees, for every block row, the list of the loads of its
      blocks, where a dense block counts all its cells; the partition of an unbalanced matrix
      tiles every block row *)
  Theorem C33_cgbr_balance (choose : nat -> nat -> nat -> kind) bal B roff nbr coff nbc workers :
    blockable B roff nbr coff nbc -> workers_ok B workers -> short_type -> short_blocks roff nbr coff nbc ->
    dense_blocks choose B roff nbr coff nbc small ->
    exists A balanced parts B', Coo_to_Cgbr choose bal workers B (full roff) nbr (full coff) nbc = Ok (A, balanced, parts, B') /\
      (exists load from : nat -> nat,
        (forall br, br <= nbr -> aget (cg_ptr A) br = Ok (from br)) /\
        (forall br k, br < nbr -> from br <= k < from (br + 1) ->
           exists G bc, aget (cg_blocks A) k = Ok G /\ aget (cg_ind A) k = Ok bc /\
             load k = match gb_mat G with
                      | MDense _ => (nth (br + 1) roff 0 - nth br roff 0) * (nth (bc + 1) coff 0 - nth bc coff 0)
                      | _ => gb_nnz G
                      end /\
             cgbr1_nonzeros G = Ok (load k)) /\
        balanced = bal (c_nnz B) nbr ((fun br => load <$> seq (from br) (from (br + 1) - from br)) <$> seq 0 nbr)) /\
      (balanced = false -> tiles_matrix (cg_ptr A) nbr parts).
  Proof.
    destruct B as [rows cols E]. intros HB (W1 & W2 & W3) Hst Hsh Hd.
    pose proof (makes1 rows cols E roff nbr coff nbc HB Hsh Hst choose Hd) as Hmk.
    pose proof HB as (Hne & HE & Hr & Hc & H1 & H2 & H3 & H4 & H5 & H6). unfold c_nnz in *. cbn [c_rows c_cols c_elems] in *.
    destruct (Coo_to_Cgbr_spec roff nbr rows coff nbc cols E Hr Hc HE Hne H1 H2 H3 H4 H5 H6 (make_block choose) tag1 _ Hmk choose bal workers eq_refl W1 W2 W3)
      as (parts & HA & Hg). cbv zeta in HA, Hg.
    eexists _, _, parts, _. split; [exact HA|]. split.
    - exists (load_of roff nbr coff nbc E (make_block choose)), (cntlt (brs roff nbr coff nbc E)). split; [|split].
      + intros br Hbr. unfold cgbr_matrix. cbn [cg_ptr]. by apply ptrs_get.
      + intros br k Hbr Hk. rewrite Nat.add_1_r in Hk. pose proof (brs_between _ (brs_sorted roff nbr coff nbc E) br k ltac:(lia)) as Hbk.
        unfold brs in Hbk. rewrite list_lookup_fmap in Hbk. destruct (bids roff nbr coff nbc E !! k) as [id|] eqn:Hid; [|done]. injection Hbk as Hbk.
        exists (made_block roff nbr coff nbc E (make_block choose) id), (id mod nbc). split; [by apply matrix_block|].
        split; [unfold cgbr_matrix; cbn [cg_ind]; rewrite aget_full; apply lget_some; by rewrite list_lookup_fmap, Hid|].
        split.
        * unfold load_of. rewrite (nth_lookup_Some _ k 0 id Hid). cbv zeta. unfold mblock_load, rsz, csz. rewrite Hbk, !Nat.add_1_r. done.
        * eapply load_spec; [exact Hmk|exact Hid].
      + f_equal. apply list_fmap_ext. intros i br _. unfold row_loads. by rewrite Nat.add_1_r.
    - intros Hb. eapply good_tiles; [|by apply Hg]. done.
  Qed.
  (** Cgbr2 always has a partition *)
  Theorem C35_cgbr2_whole_matrix (choose : list (elem T) -> nat -> nat -> kind2) B roff nbr coff nbc workers :
    blockable B roff nbr coff nbc -> workers_ok B workers -> short_type -> short_blocks roff nbr coff nbc ->
    dense_blocks2 choose B roff nbr coff nbc small ->
    exists A parts B', Coo_to_Cgbr2 (make_block2 choose) workers B (full roff) nbr (full coff) nbc = Ok (A, parts, B') /\
      tiles_matrix (cg_ptr A) nbr parts.
  Proof.
    destruct B as [rows cols E]. intros HB (W1 & W2 & W3) Hst Hsh Hd.
    pose proof (makes2 rows cols E roff nbr coff nbc HB Hsh choose Hd) as Hmk.
    pose proof HB as (Hne & HE & Hr & Hc & H1 & H2 & H3 & H4 & H5 & H6). unfold c_nnz in *. cbn [c_rows c_cols c_elems] in *.
    destruct (Coo_to_Cgbr2_spec roff nbr rows coff nbc cols E Hr Hc HE Hne H1 H2 H3 H4 H5 H6 (make_block2 choose) tag2 _ Hmk workers W1 W2 W3)
      as (parts & HA & Hg).
    eexists _, parts, _. split; [exact HA|]. by eapply good_tiles.
  Qed.
End C33.
