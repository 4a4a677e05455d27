(** Properties_BlockIo.v: C56, C57: blocked files (include/io/blocked.h, include/io/output.h:180-209).
    [make_block_file]: number the blocks, sort, count, write (the steps of the tools).
    [umax]: UINT_MAX.  [index_bytes], [storable]: see Properties_Io.v; [blockable],
    [workers_ok]: see Properties_Blocked.v. *)
From Verif Require Import CsbrProof Csbr2Proof BlockIoProof BlockIo2Proof Properties_Utils Properties_Simple Properties_Reuse Properties_Cgbr.
From Coq Require Import ZifyNat ZifyBool.

Section C56.
  Context {T : Type} `{Scalar T} `{Widths} (RT : repr T) (k umax : nat).
  Implicit Types (B : coo T) (x y : list T) (b : buf) (roff coff : list nat).

  (** what the tools put in the file *)
  Lemma make_file B roff nbr coff nbc : blockable B roff nbr coff nbc ->
    make_block_file RT k B (full roff) nbr (full coff) nbc =
      Ok (write_bin_blocked RT k (Coo (c_rows B) (c_cols B) (bsorted roff nbr coff nbc (c_elems B))) nbr nbc (length (bids roff nbr coff nbc (c_elems B)))).
  Proof.
    destruct B as [rows cols E]. intros (Hne & HE & Hr & Hc & H1 & H2 & H3 & H4 & H5 & H6). unfold c_nnz in *. cbn [c_rows c_cols c_elems] in *.
    unfold make_block_file. cbn [c_rows c_cols c_elems].
    assert (Hpos : 0 < nbr /\ 0 < nbc).
    { destruct E as [|e0 l0]; [done|]. apply Forall_inv in HE. destruct HE as [He1 He2].
      pose proof (block_of_spec _ _ _ _ Hr He1) as [? _]. pose proof (block_of_spec _ _ _ _ Hc He2) as [? _]. lia. }
    assert (Hnbr : nbr < itW /\ nbc < itW) by lia.
    rewrite (calculate_block_id_numbered E roff nbr coff nbc rows cols) by (done || lia || apply H3). cbn [mbind outcome_bind].
    rewrite sort_elements_blocks_spec. cbn [mbind outcome_bind]. fold (bsorted roff nbr coff nbc E).
    rewrite count_bids by done. done.
  Qed.
  Lemma sorted_record_fits B roff nbr coff nbc : blockable B roff nbr coff nbc ->
    Forall record_fits (bsorted roff nbr coff nbc (c_elems B)).
  Proof.
    intros (Hne & HE & Hr & Hc & H1 & H2 & H3 & H4 & H5 & H6). apply Forall_forall. intros e He.
    destruct (bsorted_elem _ _ _ _ _ _ _ HE e He) as (R & C & _).
    assert (L : blk e < itW).
    { rewrite bsorted_perm in He. unfold with_ids in He. apply elem_of_list_fmap in He as (e1 & -> & He1). by apply H3. }
    unfold record_fits. lia.
  Qed.
  Lemma blockable_small B roff nbr coff nbc : blockable B roff nbr coff nbc -> nbr < itW /\ nbc < itW /\
    (length (bids roff nbr coff nbc (c_elems B)) <= nbr * nbc /\ length (bids roff nbr coff nbc (c_elems B)) < itW) /\ 0 < nbr /\ 0 < nbc.
  Proof.
    intros (Hne & HE & Hr & Hc & H1 & H2 & H3 & H4 & H5 & H6). split; [lia|]. split; [lia|]. split; [split; [|pose proof (bids_length roff nbr coff nbc (c_elems B)); unfold c_nnz in *; lia]|].
    - pose proof (bids_sorted roff nbr coff nbc (c_elems B)) as Hs.
      assert (Hb : Forall (fun id => id < nbr * nbc) (bids roff nbr coff nbc (c_elems B))).
      { apply Forall_forall. intros id Hid. by apply (bids_range _ _ _ _ _ _ _ Hr Hc HE). }
      revert Hs Hb. generalize (bids roff nbr coff nbc (c_elems B)) (nbr * nbc). clear. intros l n Hs Hb.
      assert (NoDup l). { clear Hb. induction Hs as [|a l Hs IH Ha]; constructor; [|done]. rewrite Forall_forall in Ha. intros Hin. specialize (Ha a Hin). lia. }
      assert (Hsub : l ⊆+ seq 0 n). { apply NoDup_submseteq; [done|]. intros a Ha. rewrite Forall_forall in Hb. apply elem_of_seq. specialize (Hb a Ha). lia. }
      apply submseteq_length in Hsub. by rewrite seq_length in Hsub.
    - destruct (c_elems B) as [|e0 l0]; [done|]. apply Forall_inv in HE. destruct HE as [He1 He2].
      pose proof (block_of_spec _ _ _ _ Hr He1) as [? _]. pose proof (block_of_spec _ _ _ _ Hc He2) as [? _]. lia.
  Qed.

  (** the matrix read back is the one the conversion builds, and its product is right
      (a matrix read has no partition; [balanced] is true unless cleared) *)
  Theorem C56_csbr_roundtrip B roff nbr coff nbc workers x y b :
    index_bytes k -> storable RT -> itW = S umax -> blockable B roff nbr coff nbc -> workers_ok B workers ->
    c_cols B <= length x -> length y = c_rows B ->
    exists file A parts B', make_block_file RT k B (full roff) nbr (full coff) nbc = Ok file /\
      Coo_to_Csbr workers B (full roff) nbr (full coff) nbc = Ok (A, parts, B') /\
      read_bin_blocked_csbr RT k umax (Some file) (full roff) nbr (full coff) nbc = Ok (0%Z, Some A) /\
      (forall parts, all_schedules (csbr_spmv A parts true x b) (heap_of b y) tt (heap_of b (spmv_by_column (c_elems B) x y))) /\
      (** a file with its end cut off is never accepted *)
      forall m, m < length file ->
        read_bin_blocked_csbr RT k umax (Some (take m file)) (full roff) nbr (full coff) nbc =
          if m <? 6 * k then Abort else Ok ((-4)%Z, None).
  Proof.
    intros Hk HR Hu HB (W1 & W2 & W3) Hx Hy. pose proof (make_file B roff nbr coff nbc HB) as Hfile.
    pose proof (sorted_record_fits B roff nbr coff nbc HB) as Hfit. pose proof (blockable_small B roff nbr coff nbc HB) as (N1 & N2 & N3 & N4 & N5).
    destruct B as [rows cols E]. pose proof HB as (Hne & HE & Hr & Hc & H1 & H2 & H3 & H4 & H5 & H6). unfold c_nnz in *. cbn [c_rows c_cols c_elems] in *.
    destruct (Coo_to_Csbr_spec roff nbr rows coff nbc cols E Hr Hc HE Hne H1 H2 H3 H4 H5 H6 workers W1 W2 W3) as (parts & HA & Hg & _).
    destruct (csbr_read_back RT k umax Hk HR Hu workers _ _ _ _ _ _ _ _ HA) as (F1 & F2 & F3); unfold c_nnz; cbn [c_rows c_cols c_elems]; try (done || lia).
    - cbn [csbr_matrix sb_nnzblocks]. lia.
    - apply bsorted_length.
    - apply bsorted_ksorted.
    - eexists _, _, _, _. split; [exact F1|]. split; [exact HA|]. split; [exact F2|].
      split; [intros parts'; by apply csbr_balanced|].
      intros m Hm. destruct (Nat.ltb_spec m (6 * k)) as [Hlt|Hge]; [|apply F3; lia].
      unfold read_bin_blocked_csbr. rewrite read_common_short; [done|]. rewrite take_length. lia.
  Qed.
  Theorem C56_csbr2_roundtrip B roff nbr coff nbc x y b :
    index_bytes k -> storable RT -> itW = S umax -> blockable B roff nbr coff nbc ->
    c_cols B <= length x -> length y = c_rows B ->
    exists file A B', make_block_file RT k B (full roff) nbr (full coff) nbc = Ok file /\
      Coo_to_Csbr2 B (full roff) nbr (full coff) nbc = Ok (A, B') /\
      read_bin_blocked_csbr2 RT k umax (Some file) (full roff) nbr (full coff) nbc = Ok (0%Z, Some A) /\
      all_schedules (csbr2_spmv A x b) (heap_of b y) tt (heap_of b (spmv_by_column (c_elems B) x y)) /\
      forall m, m < length file ->
        read_bin_blocked_csbr2 RT k umax (Some (take m file)) (full roff) nbr (full coff) nbc =
          if m <? 6 * k then Abort else Ok ((-4)%Z, None).
  Proof.
    intros Hk HR Hu HB Hx Hy. pose proof (make_file B roff nbr coff nbc HB) as Hfile.
    pose proof (sorted_record_fits B roff nbr coff nbc HB) as Hfit. pose proof (blockable_small B roff nbr coff nbc HB) as (N1 & N2 & N3 & N4 & N5).
    destruct B as [rows cols E]. pose proof HB as (Hne & HE & Hr & Hc & H1 & H2 & H3 & H4 & H5 & H6). unfold c_nnz in *. cbn [c_rows c_cols c_elems] in *.
    pose proof (Coo_to_Csbr2_spec roff nbr rows coff nbc cols E Hr Hc HE Hne H1 H2 H3 H4 H5 H6) as HA.
    destruct (csbr2_read_back RT k umax Hk HR Hu _ _ _ _ _ _ _ HA) as (F1 & F2 & F3); unfold c_nnz; cbn [c_rows c_cols c_elems]; try (done || lia).
    - cbn [csbr2_matrix s2_nnzblocks]. lia.
    - apply bsorted_length.
    - apply bsorted_ksorted.
    - eexists _, _, _. split; [exact F1|]. split; [exact HA|]. split; [exact F2|].
      split; [by eapply csbr2_spmv_spec|].
      intros m Hm. destruct (Nat.ltb_spec m (6 * k)) as [Hlt|Hge]; [|apply F3; lia].
      unfold read_bin_blocked_csbr2. rewrite read_common_short; [done|]. rewrite take_length. lia.
  Qed.
  (** in exact arithmetic both give y + A x *)
  Theorem C56_roundtrip_exact B roff nbr coff nbc workers x y b (one : T) : exact_arith T one ->
    index_bytes k -> storable RT -> itW = S umax -> blockable B roff nbr coff nbc -> workers_ok B workers ->
    c_cols B <= length x -> length y = c_rows B ->
    exists file A A2, make_block_file RT k B (full roff) nbr (full coff) nbc = Ok file /\
      read_bin_blocked_csbr RT k umax (Some file) (full roff) nbr (full coff) nbc = Ok (0%Z, Some A) /\
      read_bin_blocked_csbr2 RT k umax (Some file) (full roff) nbr (full coff) nbc = Ok (0%Z, Some A2) /\
      (forall parts, all_schedules (csbr_spmv A parts true x b) (heap_of b y) tt (heap_of b (y_plus_Ax (c_elems B) (c_cols B) x y))) /\
      all_schedules (csbr2_spmv A2 x b) (heap_of b y) tt (heap_of b (y_plus_Ax (c_elems B) (c_cols B) x y)).
  Proof.
    intros SR Hk HR Hu HB HW Hx Hy. rewrite <- (spmv_by_column_exact one SR (c_rows B)) by apply HB.
    destruct (C56_csbr_roundtrip B roff nbr coff nbc workers x y b Hk HR Hu HB HW Hx Hy) as (file & A & parts & B' & F1 & F2 & F3 & F4 & _).
    destruct (C56_csbr2_roundtrip B roff nbr coff nbc x y b Hk HR Hu HB Hx Hy) as (file' & A2 & B2 & G1 & G2 & G3 & G4 & _).
    assert (file' = file) as -> by congruence. by eexists _, _, _.
  Qed.
  (** a blocking other than the one in the file stops the program *)
  Theorem C56_other_blocking B nbr nbc nz roff' nbr' coff' nbc' : index_bytes k -> fits B -> nbr < itW -> nbc < itW -> nz < itW ->
    length roff' = S nbr' -> length coff' = S nbc' ->
    nbr' <> nbr \/ nbc' <> nbc \/ roff' !! nbr' <> Some (c_rows B) \/ coff' !! nbc' <> Some (c_cols B) ->
    read_bin_blocked_csbr RT k umax (Some (write_bin_blocked RT k B nbr nbc nz)) (full roff') nbr' (full coff') nbc' = Abort /\
    read_bin_blocked_csbr2 RT k umax (Some (write_bin_blocked RT k B nbr nbc nz)) (full roff') nbr' (full coff') nbc' = Abort.
  Proof.
    intros Hk (F1 & F2 & F3 & F4) H1 H2 H3 L1 L2 Hdiff.
    assert (Hc : read_bin_blocked_common k (Some (write_bin_blocked RT k B nbr nbc nz)) (full roff') nbr' (full coff') nbc' = Abort).
    { unfold read_bin_blocked_common, write_bin_blocked.
      do 6 rewrite (fread1_enc (index_repr k)) by (apply (faithful_RI k Hk); by intros ? ->).
      cbn [Nat.add Nat.eqb assert_ mbind outcome_bind use].
      destruct (Nat.eqb_spec nbr nbr') as [->|]; [|done]. cbn [assert_ mbind outcome_bind].
      destruct (Nat.eqb_spec nbc nbc') as [->|]; [|done]. cbn [assert_ mbind outcome_bind].
      destruct (lookup_lt_is_Some_2 roff' nbr') as [r Hr]; [lia|]. destruct (lookup_lt_is_Some_2 coff' nbc') as [c Hc]; [lia|].
      rewrite (aget_full roff'), (lget_some _ _ _ Hr). cbn [mbind outcome_bind].
      destruct (Nat.eqb_spec r (c_rows B)) as [->|]; [|done]. cbn [assert_ mbind outcome_bind].
      rewrite (aget_full coff'), (lget_some _ _ _ Hc). cbn [mbind outcome_bind].
      destruct (Nat.eqb_spec c (c_cols B)) as [->|]; [|done]. naive_solver. }
    unfold read_bin_blocked_csbr, read_bin_blocked_csbr2. by rewrite Hc.
  Qed.

  (** the first record of a file *)
  Lemma first_record B roff nbr coff nbc : index_bytes k -> storable RT -> blockable B roff nbr coff nbc ->
    exists e E' rest, bsorted roff nbr coff nbc (c_elems B) = e :: E' /\ e ∈ bsorted roff nbr coff nbc (c_elems B) /\
      c_nnz B = S (length E') /\
      fread_record RT k (concat (enc_record RT k <$> bsorted roff nbr coff nbc (c_elems B))) = (Some e, rest).
  Proof.
    intros Hk HR HB. pose proof (sorted_record_fits B roff nbr coff nbc HB) as Hfit.
    pose proof (bsorted_length roff nbr coff nbc (c_elems B)) as Hlen.
    destruct (bsorted roff nbr coff nbc (c_elems B)) as [|e E'] eqn:HE'.
    - destruct HB as (Hne & _). destruct (c_elems B); [done|]. cbn in Hlen. lia.
    - exists e, E', (concat (enc_record RT k <$> E')). split; [done|]. split; [by constructor|]. split; [unfold c_nnz; by rewrite <- Hlen|].
      cbn [fmap list_fmap concat]. apply (fread_record_enc RT k Hk HR). by apply Forall_inv in Hfit.
  Qed.
  (** an index type wider than unsigned int: the first record is stored outside the arrays *)
  Theorem C56_wide_index_refuted B roff nbr coff nbc : index_bytes k -> storable RT -> S umax < itW ->
    blockable B roff nbr coff nbc -> nbr * nbc <= umax ->
    exists file, make_block_file RT k B (full roff) nbr (full coff) nbc = Ok file /\
      read_bin_blocked_csbr RT k umax (Some file) (full roff) nbr (full coff) nbc = Undef OutOfBounds /\
      read_bin_blocked_csbr2 RT k umax (Some file) (full roff) nbr (full coff) nbc = Undef OutOfBounds.
  Proof.
    intros Hk HR Hu HB Hn. eexists. split; [by apply make_file|].
    destruct (first_record B roff nbr coff nbc Hk HR HB) as (e & E' & rest & HeE & Hin & Hnnz & Hread).
    pose proof (blockable_small B roff nbr coff nbc HB) as (N1 & N2 & N3 & N4 & N5).
    pose proof (bsorted_length roff nbr coff nbc (c_elems B)) as Hlen.
    pose proof HB as (Hne & HE & Hr & Hc & H1 & H2 & H3 & H4 & H5 & H6).
    set (F := bsorted roff nbr coff nbc (c_elems B)) in *. set (nz := length (bids roff nbr coff nbc (c_elems B))) in *.
    assert (Hcm : read_bin_blocked_common k (Some (write_bin_blocked RT k (Coo (c_rows B) (c_cols B) F) nbr nbc nz)) (full roff) nbr (full coff) nbc =
      Ok (c_rows B, c_cols B, length F, nz, concat (enc_record RT k <$> F))).
    { apply (read_common RT k Hk); unfold c_nnz in *; try lia.
      - rewrite (blocking_get _ _ _ nbr Hr) by lia. destruct Hr as (_ & _ & -> & _). done.
      - rewrite (blocking_get _ _ _ nbc Hc) by lia. destruct Hc as (_ & _ & -> & _). done. }
    destruct (bsorted_blk _ _ _ _ _ _ _ Hr Hc HE e Hin) as (Hb & _).
    destruct (bsorted_inside _ _ _ _ _ _ _ Hr Hc HE e Hin) as (Hbr & Hbc & _).
    pose proof (block_geometry_ok roff nbr (c_rows B) coff nbc (c_cols B) (c_elems B) Hr Hc HE (blk e)
      ltac:(by apply (blk_in_bids roff nbr coff nbc)) ltac:(lia) ltac:(lia)) as Hg.
    apply read_geometry_of in Hg. unfold c_nnz in Hnnz.
    assert (Hw : wadd (wrap umax) 1 = S umax). { rewrite (wrap_small umax) by lia. unfold wadd. rewrite wrap_small by lia. lia. }
    assert (Hlt : (wrap umax <? blk e) || (wrap umax =? umax) = true). { rewrite (wrap_small umax) by lia. by rewrite Nat.eqb_refl, orb_true_r. }
    assert (Hnb : (blk e =? wrap umax) = false). { rewrite (wrap_small umax) by lia. apply Nat.eqb_neq. lia. }
    assert (Hptr : exists ptr, incr (new_arr0 0 (wadd nbr 1)) (blk e / nbc + 1) = Ok ptr).
    { assert (wadd nbr 1 = nbr + 1) as -> by (unfold wadd; rewrite wrap_small; lia).
      unfold incr, new_arr0. unfold aget. rewrite lookup_replicate_2 by lia. cbn [mbind outcome_bind].
      unfold aset. rewrite decide_True by (rewrite replicate_length; lia). eauto. }
    destruct Hptr as [ptr Hptr].
    assert (Hoob : forall A (v : A), aset (new_arr nz) (S umax) v = Undef OutOfBounds).
    { intros A v. unfold aset. rewrite decide_False; [done|]. unfold new_arr. rewrite replicate_length. lia. }
    split.
    - unfold read_bin_blocked_csbr. rewrite Hcm. cbn [mbind outcome_bind]. rewrite HeE at 1. cbn [length].
      unfold read_records, for_ret. cbn [for_ret_n]. rewrite Hread, Hnb, Hlt. cbn [assert_ mbind outcome_bind].
      unfold rcsbr_new. rewrite Hg. cbn [mbind outcome_bind geo3 geo g_ro g_rs g_co]. rewrite Hptr. cbn [mbind outcome_bind].
      rewrite Hw, (Hoob nat). done.
    - unfold read_bin_blocked_csbr2. rewrite Hcm. cbn [mbind outcome_bind]. rewrite HeE at 1. cbn [length].
      unfold read_records, for_ret. cbn [for_ret_n]. rewrite Hread, Hnb, Hlt. cbn [assert_ mbind outcome_bind].
      unfold rcsbr2_new. rewrite Hg. cbn [mbind outcome_bind geo3 geo g_ro g_rs g_co]. rewrite Hptr. cbn [mbind outcome_bind].
      rewrite Hw, (Hoob (arr nat)). done.
  Qed.
  (** an index type narrower than unsigned int: the first record stops the program *)
  Theorem C56_narrow_index_refuted B roff nbr coff nbc : index_bytes k -> storable RT -> itW <= umax -> wrap umax = itW - 1 ->
    blockable B roff nbr coff nbc ->
    exists file, make_block_file RT k B (full roff) nbr (full coff) nbc = Ok file /\
      read_bin_blocked_csbr RT k umax (Some file) (full roff) nbr (full coff) nbc = Abort /\
      read_bin_blocked_csbr2 RT k umax (Some file) (full roff) nbr (full coff) nbc = Abort.
  Proof.
    intros Hk HR Hu Hwr HB. eexists. split; [by apply make_file|].
    destruct (first_record B roff nbr coff nbc Hk HR HB) as (e & E' & rest & HeE & Hin & Hnnz & Hread).
    pose proof (blockable_small B roff nbr coff nbc HB) as (N1 & N2 & N3 & N4 & N5).
    pose proof (bsorted_length roff nbr coff nbc (c_elems B)) as Hlen.
    pose proof HB as (Hne & HE & Hr & Hc & H1 & H2 & H3 & H4 & H5 & H6).
    set (F := bsorted roff nbr coff nbc (c_elems B)) in *. set (nz := length (bids roff nbr coff nbc (c_elems B))) in *.
    assert (Hcm : read_bin_blocked_common k (Some (write_bin_blocked RT k (Coo (c_rows B) (c_cols B) F) nbr nbc nz)) (full roff) nbr (full coff) nbc =
      Ok (c_rows B, c_cols B, length F, nz, concat (enc_record RT k <$> F))).
    { apply (read_common RT k Hk); unfold c_nnz in *; try lia.
      - rewrite (blocking_get _ _ _ nbr Hr) by lia. destruct Hr as (_ & _ & -> & _). done.
      - rewrite (blocking_get _ _ _ nbc Hc) by lia. destruct Hc as (_ & _ & -> & _). done. }
    pose proof (blk_bound roff nbr coff nbc (c_elems B) H3 e ltac:(fold F; by rewrite HeE)) as Hb0.
    assert (Hb : blk e < itW).
    { unfold F in Hin. rewrite bsorted_perm in Hin. unfold with_ids in Hin. apply elem_of_list_fmap in Hin as (e1 & -> & He1). by apply H3. }
    unfold c_nnz in Hnnz.
    assert (Hlt : (wrap umax <? blk e) || (wrap umax =? umax) = false).
    { rewrite Hwr. apply orb_false_iff. split; [apply Nat.ltb_ge; lia|apply Nat.eqb_neq; lia]. }
    assert (Hnb : (blk e =? wrap umax) = false). { rewrite Hwr. apply Nat.eqb_neq. lia. }
    split.
    - unfold read_bin_blocked_csbr. rewrite Hcm. cbn [mbind outcome_bind]. rewrite HeE at 1. cbn [length].
      unfold read_records, for_ret. cbn [for_ret_n]. rewrite Hread, Hnb, Hlt. done.
    - unfold read_bin_blocked_csbr2. rewrite Hcm. cbn [mbind outcome_bind]. rewrite HeE at 1. cbn [length].
      unfold read_records, for_ret. cbn [for_ret_n]. rewrite Hread, Hnb, Hlt. done.
  Qed.
End C56.

(** ** C57 *)
Section C57.
  Context {T : Type} `{Scalar T} `{Widths} (RT : repr T) (k : nat).
  Implicit Types (B : coo T) (x y : list T) (b : buf) (roff coff : list nat).

  Lemma keys_repeat (e0 : elem T) (F : list (elem T)) : blk <$> head F = Some (blk e0) -> keys blk (e0 :: F) = keys blk F.
  Proof.
    destruct F as [|f F]; [done|]. cbn. intros [= Hb]. unfold keys, ids. cbn [fmap list_fmap fold_left]. rewrite Hb.
    set (g := fun acc (j : nat) => if decide (last acc = Some j) then acc else acc ++ [j]).
    assert (g [] (blk e0) = [blk e0]) as Hg0 by done.
    assert (g [blk e0] (blk e0) = [blk e0]) as Hg1 by (unfold g; by rewrite decide_True).
    change (fold_left g (blk <$> F) (g (g [] (blk e0)) (blk e0)) = fold_left g (blk <$> F) (g [] (blk e0))). by rewrite Hg0, Hg1.
  Qed.
  Lemma keys_new (e0 : elem T) (F : list (elem T)) : F <> [] -> blk <$> head F <> Some (blk e0) -> keys blk (e0 :: F) = blk e0 :: keys blk F.
  Proof.
    destruct F as [|f F]; [done|]. intros _ Hb. cbn in Hb. unfold keys, ids. cbn [fmap list_fmap fold_left].
    set (g := fun acc (j : nat) => if decide (last acc = Some j) then acc else acc ++ [j]).
    assert (Hg : forall (l : list nat) a (acc : list nat), acc <> [] -> fold_left g l (a :: acc) = a :: fold_left g l acc).
    { induction l as [|j l IH]; intros a acc Hacc; [done|]. cbn [fold_left].
      assert (Hlast : last (a :: acc) = last acc) by (by destruct acc). unfold g at 2 4. rewrite Hlast. destruct (decide (last acc = Some j)); [by apply IH|].
      cbn [app]. apply IH. by destruct acc. }
    assert (g [] (blk e0) = [blk e0]) as Hg0 by done. assert (g [] (blk f) = [blk f]) as Hg2 by done.
    assert (g [blk e0] (blk f) = [blk e0; blk f]) as Hg1.
    { unfold g. cbn [last]. rewrite decide_False; [done|]. congruence. }
    change (fold_left g (blk <$> F) (g (g [] (blk e0)) (blk f)) = blk e0 :: fold_left g (blk <$> F) (g [] (blk f))). rewrite Hg0, Hg1, Hg2. by apply Hg.
  Qed.
  Lemma tail_sorted B roff nbr coff nbc e0 F : blockable B roff nbr coff nbc -> bsorted roff nbr coff nbc (c_elems B) = e0 :: F ->
    in_range (c_rows B) (c_cols B) F /\ bsorted roff nbr coff nbc F = F.
  Proof.
    intros (Hne & HE & Hr & Hc & H1 & H2 & H3 & H4 & H5 & H6) HS.
    assert (Hel : forall e, e ∈ F -> row e < c_rows B /\ col e < c_cols B /\ blk e = block_id roff nbr coff nbc e).
    { intros e He. apply (bsorted_elem _ _ _ _ _ _ _ HE). rewrite HS. by right. }
    split; [apply Forall_forall; intros e He; by destruct (Hel e He) as (? & ? & _)|].
    unfold bsorted. assert (with_ids roff nbr coff nbc F = F) as ->.
    { unfold with_ids. rewrite <- (list_fmap_id F) at 2. apply list_fmap_ext. intros i e He%elem_of_list_lookup_2.
      destruct (Hel e He) as (_ & _ & Hb). unfold set_blk. rewrite <- Hb. by destruct e. }
    apply (isort_id _). pose proof (isort_sorted _ swo_compare_blocks (with_ids roff nbr coff nbc (c_elems B))) as Hs.
    fold (bsorted roff nbr coff nbc (c_elems B)) in Hs. rewrite HS in Hs. by inversion Hs.
  Qed.

  (** the records of the file are e0 :: F, sorted by block *)
  Theorem C57_first_element_lost_refuted (choose : nat -> nat -> nat -> kind) B roff nbr coff nbc workers (e0 : elem T) (F : list (elem T)) (one : T) :
    exact_arith T one -> index_bytes k -> storable RT -> blockable B roff nbr coff nbc -> nbr * nbc < itW -> workers_ok B workers ->
    short_type -> short_blocks roff nbr coff nbc -> dense_blocks choose (Coo (c_rows B) (c_cols B) F) roff nbr coff nbc small_distinct ->
    (E1 ← calculate_block_id (c_elems B) (full roff) nbr (full coff) nbc; sort_elements_blocks E1) = Ok (e0 :: F) -> F <> [] ->
    exists file A parts, make_block_file RT k B (full roff) nbr (full coff) nbc = Ok file /\
      read_bin_blocked_cgbr RT k choose workers (Some file) (full roff) nbr (full coff) nbc = Ok (0%Z, A, parts) /\
      cg_nnz A = c_nnz B /\ same_elements (c_elems B) (e0 :: F) /\
      forall balanced x y b, c_cols B <= length x -> length y = c_rows B ->
        all_schedules (cgbr_spmv A balanced parts x b) (heap_of b y) tt (heap_of b (y_plus_Ax F (c_cols B) x y)).
  Proof.
    intros SR Hk HRT HB Hfew HW Hst Hsh Hd Hsorted HneF.
    pose proof (blockable_small B roff nbr coff nbc HB) as (N1 & N2 & N3 & N4 & N5).
    pose proof (make_file RT k B roff nbr coff nbc HB) as Hfile.
    pose proof (sorted_record_fits B roff nbr coff nbc HB) as Hfit.
    assert (HS : bsorted roff nbr coff nbc (c_elems B) = e0 :: F).
    { pose proof HB as (Hne & HE & Hr & Hc & H1 & H2 & H3 & H4 & H5 & H6).
      rewrite (calculate_block_id_numbered (c_elems B) roff nbr coff nbc (c_rows B) (c_cols B)) in Hsorted by (done || lia || apply H3). cbn [mbind outcome_bind] in Hsorted.
      rewrite sort_elements_blocks_spec in Hsorted. unfold bsorted. congruence. }
    destruct (tail_sorted B roff nbr coff nbc e0 F HB HS) as [HEF HSF].
    assert (Hlen : c_nnz B = S (length F)). { unfold c_nnz. by rewrite <- (bsorted_length roff nbr coff nbc (c_elems B)), HS. }
    set (I := bids roff nbr coff nbc (c_elems B)) in *.
    assert (HIk : I = keys blk (e0 :: F)) by (unfold I, bids; by rewrite HS).
    assert (HFk : bids roff nbr coff nbc F = keys blk F) by (unfold bids; by rewrite HSF).
    pose proof (bids_sorted roff nbr coff nbc (c_elems B)) as HIs. fold I in HIs.
    set (at_block := blocks_at roff nbr coff nbc F).
    assert (Hne_at : forall id, id ∈ bids roff nbr coff nbc F -> at_block id <> []).
    { intros id (e & He & Hb)%bids_elem Hn. assert (e ∈ at_block id) as Hin.
      { unfold at_block, blocks_at, group. apply elem_of_list_In, filter_In. split; [by apply elem_of_list_In|]. unfold has. by rewrite Hb, Nat.eqb_refl. }
      rewrite Hn in Hin. by apply elem_of_nil in Hin. }
    assert (Hat0 : forall id, id ∉ bids roff nbr coff nbc F -> at_block id = []).
    { intros id Hni. destruct (at_block id) as [|e l] eqn:Ee; [done|]. exfalso. apply Hni. rewrite HFk. apply keys_elem.
      assert (He : e ∈ at_block id) by (rewrite Ee; left). apply blocks_at_elem in He as [He Hb]. rewrite HSF in He. eauto. }
    (** the blocks the loop makes are those of B *)
    assert (HI : I = bids roff nbr coff nbc F \/ exists id0, I = id0 :: bids roff nbr coff nbc F /\ at_block id0 = []).
    { rewrite HIk, HFk. destruct (decide (blk <$> head F = Some (blk e0))) as [Hf|Hf]; [left; by apply keys_repeat|].
      right. exists (blk e0). rewrite (keys_new e0 F HneF Hf). split; [done|]. apply Hat0. rewrite HFk. intros Hin.
      rewrite HIk, (keys_new e0 F HneF Hf) in HIs. apply StronglySorted_inv in HIs as [_ HIs]. rewrite Forall_forall in HIs. specialize (HIs _ Hin). lia. }
    assert (Hhead : head I = Some (blk e0)).
    { rewrite HIk. destruct (decide (blk <$> head F = Some (blk e0))) as [Hf|Hf]; [|by rewrite (keys_new e0 F HneF Hf)].
      clear - HIs HIk Hf. unfold keys, ids. cbn [fmap list_fmap fold_left].
      set (g := fun acc (j : nat) => if decide (last acc = Some j) then acc else acc ++ [j]).
      assert (Hg : forall (l acc : list nat) a, exists r, fold_left g l (a :: acc) = a :: r).
      { induction l as [|j l IH]; intros acc a; [by exists acc|]. cbn [fold_left]. unfold g at 2. destruct (decide _); [apply IH|]. apply (IH (acc ++ [j])). }
      assert (g [] (blk e0) = [blk e0]) as Hg0 by done. change (head (fold_left g (blk <$> F) (g [] (blk e0))) = Some (blk e0)). rewrite Hg0.
      destruct (Hg (blk <$> F) [] (blk e0)) as [r ->]. done. }
    assert (Hjoin : mjoin (at_block <$> I) = F).
    { assert (Hj0 : mjoin (at_block <$> bids roff nbr coff nbc F) = F).
      { unfold at_block. rewrite (all_blocks roff nbr coff nbc F). exact HSF. }
      destruct HI as [->|(id0 & -> & Hz)]; [done|]. cbn [fmap list_fmap mjoin list_join]. rewrite Hz. exact Hj0. }
    assert (Htail : forall id, id ∈ tail I -> at_block id <> []).
    { intros id Hid. apply Hne_at. destruct HI as [HI|(id0 & HI & _)]; rewrite HI in Hid; [|done].
      destruct (bids roff nbr coff nbc F); [done|by right]. }
    rewrite HS in Hfile, Hfit.
    destruct B as [rows cols E]. pose proof HB as (Hne & HE & Hr & Hc & H1 & H2 & H3 & H4 & H5 & H6).
    destruct HW as (W1 & W2 & W3). rewrite Hlen in *. unfold c_nnz in *. cbn [c_rows c_cols c_elems] in *.
    assert (HBF : blockable (Coo rows cols F) roff nbr coff nbc).
    { unfold blockable, c_nnz. cbn [c_rows c_cols c_elems]. do 6 (split; [done|]). split; [by eapply numbered_small|]. lia. }
    assert (HnF : numbered roff nbr coff nbc F) by apply HBF.
    pose proof (bids_length roff nbr coff nbc E) as HIl. fold I in HIl. rewrite Hlen in HIl.
    assert (Hfacts : forall id, id ∈ I -> id / nbc < nbr /\ id mod nbc < nbc /\ rsz roff nbc id = block_rows roff (id / nbc) /\ csz coff nbc id = block_rows coff (id mod nbc) /\
      same_elements (local roff nbr coff nbc F id) (submatrix roff (id / nbc) coff (id mod nbc) F) /\
      exists (M : gblock T) ty L, makes (make_block choose) tag1 (local roff nbr coff nbc F id) (rsz roff nbc id) (csz coff nbc id) M ty L /\
        (~ choose (rsz roff nbc id) (csz coff nbc id) (length (local roff nbr coff nbc F id)) = KDense -> ~ is_dense (gb_mat M))).
    { intros id Hid. destruct (decide (id ∈ bids roff nbr coff nbc F)) as [Hin|Hni].
      { destruct (block_facts rows cols F roff nbr coff nbc HBF Hsh id Hin) as (F1 & F2 & F3 & F4 & F5 & _).
        split; [done|]. split; [done|]. split; [done|]. split; [done|]. split; [done|].
        exact (makes1 rows cols F roff nbr coff nbc HBF Hsh Hst choose (dense_blocks_weaken _ _ _ _ _ _ Hd) id Hin). }
      destruct (block_facts rows cols E roff nbr coff nbc HB Hsh id Hid) as (F1 & F2 & _ & F4 & F5 & _ & _ & F8 & F9 & F10 & _ & F12 & _).
      pose proof (at_block_submatrix roff nbr rows coff nbc cols F id Hr Hc HEF F1 F2) as Hsub.
      assert (Hl : local roff nbr coff nbc F id = []) by (unfold CgbrProof.local; fold at_block; by rewrite (Hat0 id Hni)).
      split; [done|]. split; [done|]. split; [done|]. split; [done|]. split; [done|]. rewrite Hl in Hsub |- *.
      assert (Hs : submatrix roff (id / nbc) coff (id mod nbc) F = []).
      { unfold same_elements in Hsub. apply Permutation_nil_l in Hsub. by destruct (submatrix roff (id / nbc) coff (id mod nbc) F). }
      destruct (make_block_makes [] (rsz roff nbc id) (csz coff nbc id) ltac:(constructor) ltac:(constructor) F8 F9 F10 ltac:(cbn; lia) choose) as (M & ty & L & HM & HD); [done|exact Hst| |].
      - intros Hkd. pose proof (Hd _ _ F1 F2) as Hdd. cbn [c_elems] in Hdd. cbv zeta in Hdd. rewrite Hs, <- F4, <- F5 in Hdd. by apply Hdd.
      - exists M, ty, L. split; [done|]. intros Hkd. specialize (HD Hkd). unfold is_dense. destruct (gb_mat M); [by intros []..|done]. }
    set (h := enc (index_repr k) rows ++ enc (index_repr k) cols ++ enc (index_repr k) (S (length F)) ++
     enc (index_repr k) nbr ++ enc (index_repr k) nbc ++ enc (index_repr k) (length I)).
    assert (Hh : length h = 6 * k) by apply header_length.
    set (file := write_bin_blocked RT k (Coo rows cols (e0 :: F)) nbr nbc (length I)) in *.
    assert (Hf : file = h ++ concat (enc_record RT k <$> e0 :: F)).
    { unfold file, write_bin_blocked, h, c_nnz. cbn [c_rows c_cols c_elems length]. by rewrite <- !app_assoc. }
    assert (Hcm : read_bin_blocked_common k (Some file) (full roff) nbr (full coff) nbc =
      Ok (rows, cols, S (length F), length I, concat (enc_record RT k <$> e0 :: F))).
    { apply (read_common RT k Hk); try (cbn [length]; lia).
      - rewrite (blocking_get _ _ _ nbr Hr) by lia. destruct Hr as (_ & _ & -> & _). done.
      - rewrite (blocking_get _ _ _ nbc Hc) by lia. destruct Hc as (_ & _ & -> & _). done. }
    assert (Hgeo : forall id, id ∈ I -> id / nbc < nbr /\ block_geometry (full roff) (full coff) nbc id = Ok (id / nbc, id mod nbc, geo roff coff nbc id)).
    { intros id Hid. split; [by apply Hfacts|]. apply (block_geometry_ok roff nbr rows coff nbc cols E Hr Hc HE id Hid); lia. }
    assert (Hmk : forall id, id ∈ I -> exists (M : gblock T) ty L, makes (make_block choose) tag1 (local roff nbr coff nbc F id) (rsz roff nbc id) (csz coff nbc id) M ty L /\
        (~ choose (rsz roff nbc id) (csz coff nbc id) (length (local roff nbr coff nbc F id)) = KDense -> ~ is_dense (gb_mat M))) by (intros id Hid; by apply Hfacts).
    assert (Hmake : forall id, id ∈ I -> exists (M : gblock T) ty L, make_block choose (local roff nbr coff nbc F id) (rsz roff nbc id) (csz coff nbc id) = Ok (M, ty, L) /\
      length L = length (local roff nbr coff nbc F id) /\ ty < MATRIX_TYPE_NUM).
    { intros id Hid. destruct (Hmk id Hid) as (M & ty & L & HM & _). exists M, ty, L. split; [by apply HM|]. split; [|by apply HM].
      by rewrite (mk_same _ _ _ _ _ _ _ _ HM). }
    destruct (loop_run RT k Hk HRT roff nbr rows coff nbc cols e0 F Hr Hc HEF HneF H1 H2 HnF H4 H5 ltac:(lia) (make_block choose)
      I Hjoin Hhead (increasing_NoDup _ HIs) Htail HIl Hgeo Hmake h Hh Hfit) as (p & bv & Hloop).
    rewrite <- Hf in Hloop.
    set (brs' := (fun id => id / nbc) <$> I).
    assert (Hbs : ksorted (fun n => n) brs') by (exact (brs_sorted roff nbr coff nbc E)).
    assert (Hbr : Forall (fun bi => bi < nbr) brs') by (apply Forall_fmap, Forall_forall; intros id Hid; cbn; by apply Hfacts).
    set (A' := matrix_of roff nbr rows coff nbc cols F (make_block choose) I (S (length F))).
    assert (Hparts : exists parts, partition_init (cgbr_view cgbr1_nonzeros A') workers = Ok parts /\ good_partition nbr brs' parts).
    { eapply (partition_init_tiles _ nbr brs'); [done|done|apply min_nnz_ok; cbn; lia| |].
      - intros j Hj. unfold brs' in Hj. rewrite fmap_length in Hj. eapply nonzeros_in; [exact Hmk|exact Hj].
      - unfold brs'. rewrite fmap_length. lia. }
    destruct Hparts as (parts & Hp & Hg).
    exists file, A', parts. split; [exact Hfile|]. split; [|split; [done|split]].
    - unfold read_bin_blocked_cgbr. rewrite Hcm. cbn [mbind outcome_bind default].
      assert (Hs0 : skip_record RT k None (h ++ concat (enc_record RT k <$> e0 :: F)) (6 * k) = (4, Some (blk e0), record_at RT k 1)).
      { replace (6 * k) with (record_at RT k 0) by (unfold record_at; lia). by apply (skip_at RT k Hk HRT h (e0 :: F) Hh Hfit 0 e0). }
      rewrite <- Hf in Hs0. unfold default, id. rewrite Hs0.
      assert (wadd nbr 1 = S nbr) as -> by (unfold wadd; rewrite wrap_small; nia).
      unfold with_pos, tail_state at 1 in Hloop. cbn [fmap list_fmap length mjoin list_join] in Hloop. rewrite counters_nil, !part_nil, tallies_nil in Hloop.
      rewrite Hloop. unfold tail_state. cbn [mbind outcome_bind]. fold brs'.
      assert (Hbl : length brs' = length I) by (unfold brs'; apply fmap_length).
      rewrite prefix_sum_spec by lia. cbn [mbind outcome_bind].
      rewrite ptrs_get by lia. cbn [mbind outcome_bind].
      rewrite cntlt_all by done. rewrite Hbl, Nat.eqb_refl. cbn [assert_ mbind outcome_bind].
      rewrite !part_full_len by apply fmap_length. unfold A', matrix_of in Hp. fold brs' in Hp.
      rewrite Hp. unfold A', matrix_of. fold brs'. done.
    - rewrite <- HS. unfold same_elements. symmetry. apply bsorted_coords.
    - intros balanced x y b Hx Hy.
      assert (Hdist : forall id, id ∈ I ->
        choose (rsz roff nbc id) (csz coff nbc id) (length (local roff nbr coff nbc F id)) = KDense -> distinct_coords (local roff nbr coff nbc F id)).
      { intros id Hid Hkd. destruct (Hfacts id Hid) as (F1 & F2 & F4 & F5 & F3 & _).
        assert (F13 : length (local roff nbr coff nbc F id) = length (submatrix roff (id / nbc) coff (id mod nbc) F)).
        { unfold same_elements in F3. apply Permutation_length in F3. by rewrite !fmap_length in F3. }
        rewrite F13, F4, F5 in Hkd. apply (Hd _ _ F1 F2) in Hkd as [_ Hkd]. eapply same_elements_distinct; [|exact Hkd]. unfold same_elements in *. by symmetry. }
      apply (matrix_of_spmv roff nbr rows coff nbc cols F Hr Hc HEF H4 (make_block choose) tag1 _ I HI Hbs
        (fun id Hid => conj (proj1 (Hfacts id Hid)) (proj1 (proj2 (Hfacts id Hid)))) Hmk one SR Hdist (fun id => kind_dec _) (S (length F)) parts balanced x y b Hx Hy Hg).
  Qed.
  Theorem C57_single_refuted (choose : nat -> nat -> nat -> kind) B roff nbr coff nbc workers :
    index_bytes k -> storable RT -> blockable B roff nbr coff nbc -> c_nnz B = 1 ->
    exists file, make_block_file RT k B (full roff) nbr (full coff) nbc = Ok file /\
      read_bin_blocked_cgbr RT k choose workers (Some file) (full roff) nbr (full coff) nbc = Undef Uninit.
  Proof.
    intros Hk HRT HB Hn1. pose proof (blockable_small B roff nbr coff nbc HB) as (N1 & N2 & N3 & N4 & N5).
    pose proof (make_file RT k B roff nbr coff nbc HB) as Hfile. pose proof (sorted_record_fits B roff nbr coff nbc HB) as Hfit.
    pose proof (bsorted_length roff nbr coff nbc (c_elems B)) as Hlen.
    destruct (bsorted roff nbr coff nbc (c_elems B)) as [|e0 F] eqn:HS; unfold c_nnz in Hn1; rewrite Hn1 in Hlen; [done|]. destruct F; [|done]. clear Hlen.
    pose proof HB as (Hne & HE & Hr & Hc & H1 & H2 & H3 & H4 & H5 & H6).
    set (nz := length (bids roff nbr coff nbc (c_elems B))) in *.
    eexists. split; [exact Hfile|].
    set (h := enc (index_repr k) (c_rows B) ++ enc (index_repr k) (c_cols B) ++ enc (index_repr k) 1 ++
     enc (index_repr k) nbr ++ enc (index_repr k) nbc ++ enc (index_repr k) nz).
    assert (Hh : length h = 6 * k) by apply header_length.
    set (file := write_bin_blocked RT k (Coo (c_rows B) (c_cols B) [e0]) nbr nbc nz).
    assert (Hf : file = h ++ concat (enc_record RT k <$> [e0])).
    { unfold file, write_bin_blocked, h, c_nnz. cbn [c_rows c_cols c_elems length]. by rewrite <- !app_assoc. }
    assert (Hcm : read_bin_blocked_common k (Some file) (full roff) nbr (full coff) nbc =
      Ok (c_rows B, c_cols B, 1, nz, concat (enc_record RT k <$> [e0]))).
    { unfold c_nnz in *. apply (read_common RT k Hk); try (cbn [length]; lia).
      - rewrite (blocking_get _ _ _ nbr Hr) by lia. destruct Hr as (_ & _ & -> & _). done.
      - rewrite (blocking_get _ _ _ nbc Hc) by lia. destruct Hc as (_ & _ & -> & _). done. }
    assert (Hs0 : skip_record RT k None file (6 * k) = (4, Some (blk e0), record_at RT k 1)).
    { rewrite Hf. replace (6 * k) with (record_at RT k 0) by (unfold record_at; lia). by apply (skip_at RT k Hk HRT h [e0] Hh Hfit 0 e0). }
    assert (Hs1 : skip_record RT k None file (record_at RT k 1) = (0, None, record_at RT k 1)).
    { rewrite Hf. by apply (skip_end RT k Hk HRT h [e0] Hh). }
    unfold read_bin_blocked_cgbr. rewrite Hcm. cbn [mbind outcome_bind default]. unfold default, id. rewrite Hs0.
    unfold for_range. change (1 - 0) with 1. cbn [for_n]. unfold rcgbr_body at 1. rewrite Hs1. done.
  Qed.
End C57.

(** values of Z as two numbers; ex_B in four blocks, indices of one byte *)
Definition ex_RZ : repr Z := {| sz := 2; enc := fun z => [Z.to_nat z; Z.to_nat (- z)]; dec := fun l => (Z.of_nat (nth 0 l 0%nat) - Z.of_nat (nth 1 l 0%nat))%Z |}.
Lemma ex_RZ_storable : storable ex_RZ.
Proof. split; [cbn; lia|]. intros z. split; [done|]. cbn. lia. Qed.
Lemma ex_blockable16 : @blockable ex_W16 Z ex_B [0; 2; 4] 2 [0; 3; 5] 2 /\ @workers_ok ex_W16 Z ex_B 4.
Proof.
  assert (HB : in_range (c_rows ex_B) (c_cols ex_B) (c_elems ex_B)) by (repeat constructor; cbn; lia).
  assert (Hbl : forall off nb n, off = [0; 2; 4] /\ nb = 2 /\ n = 4 \/ off = [0; 3; 5] /\ nb = 2 /\ n = 5 -> blocking off nb n).
  { intros off nb n [(-> & -> & ->)|(-> & -> & ->)]; (split; [done|]; split; [done|]; split; [done|]; intros [|[|b]] Hb; cbn; lia). }
  assert (Hnum : numbered (H := ex_W16) [0; 2; 4] 2 [0; 3; 5] 2 (c_elems ex_B)).
  { eapply numbered_small; [by apply Hbl; auto|by apply Hbl; eauto|exact HB|done|cbn; lia]. }
  unfold blockable, workers_ok, c_nnz. cbn [c_rows c_cols c_elems ex_B length] in *.
  repeat match goal with |- _ /\ _ => split end; first [exact Hnum | done | exact HB | by apply Hbl; auto | by apply Hbl; eauto | cbn; lia].
Qed.
Example C56_ex : @index_bytes ex_W16 1 /\ storable ex_RZ /\ @itW ex_W16 = S 255 /\ @blockable ex_W16 Z ex_B [0; 2; 4] 2 [0; 3; 5] 2 /\ @workers_ok ex_W16 Z ex_B 4 /\
  exact_arith Z 1%Z /\ c_cols ex_B <= length ex_x /\ length ex_y = c_rows ex_B /\
  @make_block_file Z ex_W16 ex_RZ 1 ex_B (full [0; 2; 4]) 2 (full [0; 3; 5]) 2 =
    Ok [4; 5; 5; 2; 2; 3;  0; 0; 2; 2; 0;  0; 0; 2; 3; 0;  0; 1; 1; 1; 0;  2; 3; 0; 5; 0;  3; 3; 4; 7; 0].
Proof.
  destruct ex_blockable16 as [H1 H2]. split; [split; [lia|done]|]. split; [exact ex_RZ_storable|]. split; [done|]. split; [exact H1|]. split; [exact H2|].
  split; [apply exact_Z|]. split; [cbn; lia|]. split; [done|]. vm_compute. reflexivity.
Qed.
(** wider and narrower index types *)
Example C56_refuted_ex : @blockable ex_W16 Z ex_B [0; 2; 4] 2 [0; 3; 5] 2 /\ S 15 < @itW ex_W16 /\ 2 * 2 <= 15 /\
  @itW ex_W16 <= 256 * 256 - 1 /\ @wrap ex_W16 (256 * 256 - 1) = @itW ex_W16 - 1.
Proof. split; [apply ex_blockable16|]. split; [cbn; lia|]. split; [lia|]. split; [cbn [itW ex_W16]; lia|vm_compute; done]. Qed.
(** without its first element the product of the matrix is another one; the first element may be
    the only one of its block (C57_lone_ex) *)
Example C57_ex : exists e0 F,
  (E1 ← @calculate_block_id Z ex_W16 (c_elems ex_B) (full [0; 2; 4]) 2 (full [0; 3; 5]) 2; @sort_elements_blocks Z E1) = Ok (e0 :: F) /\
  F <> [] /\ 2 * 2 < @itW ex_W16 /\ @short_type ex_W16 /\ @short_blocks ex_W16 [0; 2; 4] 2 [0; 3; 5] 2 /\
  dense_blocks (fun _ _ _ => KCsr) (Coo 4 5 F) [0; 2; 4] 2 [0; 3; 5] 2 (@small_distinct Z ex_W16) /\
  y_plus_Ax F 5 ex_x ex_y <> y_plus_Ax (c_elems ex_B) 5 ex_x ex_y.
Proof.
  exists (Elem 0 2 2%Z 0), [Elem 0 2 3%Z 0; Elem 1 1 1%Z 0; Elem 3 0 5%Z 2; Elem 3 4 7%Z 3].
  split; [vm_compute; reflexivity|]. split; [done|]. split; [cbn; lia|]. split; [right; split; [cbn; lia|cbn; lia]|].
  split; [split; intros [|[|n]] Hn; cbn; lia|]. split; [by intros br bc H1 H2|]. vm_compute. done.
Qed.
Example C57_lone_ex : exists e0 F, let B := Coo 4 5 [Elem 3 4 7%Z 0; Elem 1 1 1%Z 0; Elem 3 0 5%Z 0] in
  @blockable ex_W16 Z B [0; 2; 4] 2 [0; 3; 5] 2 /\ @workers_ok ex_W16 Z B 4 /\
  (E1 ← @calculate_block_id Z ex_W16 (c_elems B) (full [0; 2; 4]) 2 (full [0; 3; 5]) 2; @sort_elements_blocks Z E1) = Ok (e0 :: F) /\
  F <> [] /\ Forall (fun e => blk e <> blk e0) F /\ y_plus_Ax F 5 ex_x ex_y <> y_plus_Ax (c_elems B) 5 ex_x ex_y.
Proof.
  exists (Elem 1 1 1%Z 0), [Elem 3 0 5%Z 2; Elem 3 4 7%Z 3]. pose proof ex_blockable16 as [(_ & _ & A1 & A2 & _) _].
  split; [split; [done|]; split; [repeat constructor; cbn; lia|]; split; [exact A1|]; split; [exact A2|]; split; [cbn; lia|]; split; [cbn; lia|]; split; [eapply numbered_small; [exact A1|exact A2|repeat constructor; cbn; lia|done|cbn; lia]|]; cbn; lia|].
  split; [unfold workers_ok, c_nnz; cbn; lia|]. split; [vm_compute; reflexivity|]. split; [done|].
  split; [repeat constructor; done|]. vm_compute. done.
Qed.
Example C57_single_ex : let B := Coo 4 5 [Elem 3 4 7%Z 0] in @blockable ex_W16 Z B [0; 2; 4] 2 [0; 3; 5] 2 /\ c_nnz B = 1.
Proof.
  split; [|done]. pose proof ex_blockable16 as [(_ & _ & A1 & A2 & _) _].
  split; [done|]. split; [repeat constructor; cbn; lia|]. split; [exact A1|]. split; [exact A2|]. split; [cbn; lia|]. split; [cbn; lia|].
  split; [eapply numbered_small; [exact A1|exact A2|repeat constructor; cbn; lia|done|cbn; lia]|]. cbn. lia.
Qed.
