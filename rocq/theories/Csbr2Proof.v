(** Csbr2Proof.v: proofs about Csbr2 (Csbr.v) *)
From Verif Require Export Csbr CsbrProof.
From Coq Require Import ZifyNat ZifyBool.

(** prefix sums that start at [base] *)
Lemma prefix_sum_base `{Widths} base K m : base + length K < itW ->
  (ptr ← aset (full (counters K m)) 0 base; prefix_sum ptr m) = Ok (full ((fun j => base + cntlt K j) <$> seq 0 (S m))).
Proof.
  intros Hw. apply wp_eq. unfold prefix_sum. rewrite aset_full by (unfold counters; rewrite fmap_length, seq_length; lia).
  cbn [mbind outcome_bind].
  pose (P := fun j => (fun i => if i <=? j then base + cntlt K i else cnteq K (i - 1)) <$> seq 0 (S m)).
  match goal with |- wp (for_range 0 m ?st ?i) _ => assert (Hw2 : wp (for_range 0 m st i) (fun r => r = full (P m))) end.
  { apply (wp_for_range (fun j r => r = full (P j))); [lia| |].
    - f_equal. unfold counters, P. rewrite fmap_seq_insert by lia. apply fmap_seq_ext. intros [|j] Hj; [simpl; rewrite cntlt_0; lia|].
      rewrite (proj2 (Nat.leb_gt (S j) 0)) by lia. simpl. by rewrite Nat.sub_0_r.
    - intros j r Hj ->. rewrite !aget_full. unfold P.
      rewrite (lget_some _ (j + 1) (cnteq K j)).
      2:{ rewrite fmap_seq_lookup by lia. rewrite (proj2 (Nat.leb_gt (j + 1) j)) by lia. by rewrite Nat.add_sub. }
      rewrite (lget_some _ j (base + cntlt K j)).
      2:{ rewrite fmap_seq_lookup by lia. by rewrite Nat.leb_refl. }
      cbn [mbind outcome_bind]. rewrite aset_full by (rewrite fmap_length, seq_length; lia).
      cbn [wp]. f_equal. rewrite fmap_seq_insert by lia. apply fmap_seq_ext. intros i Hi.
      destruct (Nat.eqb_spec i (j + 1)) as [->|Hne].
      + rewrite (proj2 (Nat.leb_le (j + 1) (S j))) by lia. replace (j + 1) with (S j) by lia. rewrite cntlt_S.
        unfold wadd. rewrite wrap_small; [lia|]. pose proof (cntlt_S K j). pose proof (cntlt_le K (S j)). lia.
      + destruct (Nat.leb_spec i j), (Nat.leb_spec i (S j)); try done; lia. }
  eapply wp_mono; [exact Hw2|]. intros r ->. f_equal. unfold P. apply fmap_seq_ext.
  intros j Hj. by rewrite (proj2 (Nat.leb_le j m)) by lia.
Qed.

(** where block k starts *)
Section positions.
  Context (K I : list nat) (HI : StronglySorted lt I) (HK : forall q, q ∈ K -> q ∈ I).
  Definition start_of (k : nat) : nat := match I !! k with Some id => cntlt K id | None => length K end.
  Lemma StronglySorted_lookup_lt (l : list nat) i j a c : StronglySorted lt l -> l !! i = Some a -> l !! j = Some c -> i < j -> a < c.
  Proof.
    intros Hs. revert i j. induction Hs as [|h l Hs IH Hf]; intros i j Hi Hj Hij; [done|].
    destruct j as [|j]; [lia|]. destruct i as [|i]; simpl in *.
    - injection Hi as <-. rewrite Forall_forall in Hf. apply Hf. by eapply elem_of_list_lookup_2.
    - eapply IH; eauto. lia.
  Qed.
  Lemma cntlt_ext (j j' : nat) : (forall q, q ∈ K -> (q < j <-> q < j')) -> cntlt K j = cntlt K j'.
  Proof.
    clear HK. unfold cntlt. intros Hq. f_equal. induction K as [|q Q IH]; [done|]. cbn [List.filter].
    assert ((q <? j) = (q <? j')) as ->.
    { pose proof (Hq q ltac:(left)). destruct (Nat.ltb_spec q j), (Nat.ltb_spec q j'); try done; lia. }
    rewrite IH; [done|]. intros q' Hq'. apply Hq. by right.
  Qed.
  Lemma start_0 : start_of 0 = 0.
  Proof.
    unfold start_of. destruct (I !! 0) as [id|] eqn:Hid.
    - rewrite <- (cntlt_0 K). apply cntlt_ext. intros q Hq. apply HK in Hq. apply elem_of_list_lookup in Hq as [i Hi].
      destruct i as [|i]; [assert (q = id) as -> by congruence; lia|].
      pose proof (StronglySorted_lookup_lt I 0 (S i) _ _ HI Hid Hi ltac:(lia)). lia.
    - destruct K as [|q Q]; [done|]. pose proof (HK q ltac:(left)) as Hq. destruct I; [by apply elem_of_nil in Hq|done].
  Qed.
  Lemma start_S k id : I !! k = Some id -> start_of (S k) = start_of k + cnteq K id.
  Proof.
    intros Hid. unfold start_of. rewrite Hid, <- cntlt_S. destruct (I !! S k) as [id'|] eqn:Hid'.
    - apply cntlt_ext. intros q Hq. apply HK in Hq. apply elem_of_list_lookup in Hq as [i Hi].
      pose proof (StronglySorted_lookup_lt I k (S k) _ _ HI Hid Hid' ltac:(lia)).
      destruct (decide (i < S k)).
      + pose proof (StronglySorted_lookup_lt I i (S k) _ _ HI Hi Hid' ltac:(lia)).
        destruct (decide (i = k)) as [->|]; [assert (q = id) as -> by congruence; lia|].
        pose proof (StronglySorted_lookup_lt I i k _ _ HI Hi Hid ltac:(lia)). lia.
      + destruct (decide (i = S k)) as [->|]; [assert (q = id') as -> by congruence; lia|].
        pose proof (StronglySorted_lookup_lt I (S k) i _ _ HI Hid' Hi ltac:(lia)). lia.
    - symmetry. apply cntlt_all. apply Forall_forall. intros q Hq. apply HK in Hq. apply elem_of_list_lookup in Hq as [i Hi].
      pose proof (lookup_lt_Some _ _ _ Hi). apply lookup_ge_None_1 in Hid'.
      destruct (decide (i = k)) as [->|]; [assert (q = id) as -> by congruence; lia|].
      pose proof (StronglySorted_lookup_lt I i k _ _ HI Hi Hid ltac:(lia)). lia.
  Qed.
End positions.

Section csbr2.
  Context {T : Type} `{Scalar T} `{Widths}.
  Context (roff : list nat) (nbr rows : nat) (coff : list nat) (nbc cols : nat) (E : list (elem T)).
  Context (Hr : blocking roff nbr rows) (Hc : blocking coff nbc cols) (HE : in_range rows cols E).
  Context (Hne : E <> []) (Hnr : nbr <= rows) (Hnc : nbc <= cols) (Hids : numbered roff nbr coff nbc E).
  Context (Hrows : rows + 1 < itW) (Hcols : cols < itW) (Hnnz : length E < itW).
  Notation E' := (bsorted roff nbr coff nbc E).
  Notation I := (bids roff nbr coff nbc E).
  Notation lc := (loc roff coff nbc).
  Implicit Types (l : list (elem T)) (e : elem T).

  Definition c2_rp (id : nat) (L : list (elem T)) : arr nat := full (counters ((fun e => row (lc e)) <$> L) (rsz roff nbc id)).
  Definition c2_rp_done (id : nat) : arr nat :=
    full ((fun j => cntlt (blk <$> E') id + cntlt ((fun e => row (lc e)) <$> blocks_at roff nbr coff nbc E id) j) <$> seq 0 (S (rsz roff nbc id))).
  Definition csbr2_inv l (st : csbr2_st (T := T)) : Prop :=
    st = (geo roff coff nbc <$> last (blk <$> l), full (counters ((fun id => id / nbc) <$> keys blk l) nbr),
          part (per_block blk c2_rp l) (length I), part (col <$> l) (length E), part (val <$> l) (length E)).

  Lemma csbr2_add_step l e r (L : list (arr nat)) (K : list nat) (ptr : arr nat) : E' = l ++ e :: r ->
    length L < length I -> length K <= length l ->
    csbr2_add (length L) (length l) e (Some (geo roff coff nbc (blk e)), ptr, part (L ++ [full (counters K (rsz roff nbc (blk e)))]) (length I),
      part (col <$> l) (length E), part (val <$> l) (length E)) =
    Ok (Some (geo roff coff nbc (blk e)), ptr,
        part (L ++ [full (counters (K ++ [row (lc e)]) (rsz roff nbc (blk e)))]) (length I),
        part (col <$> (l ++ [e])) (length E), part (val <$> (l ++ [e])) (length E)).
  Proof.
    intros HE' HL HKl. destruct (prefix_facts roff nbr coff nbc E l e r HE') as (He & Hl & _ & _ & _).
    unfold csbr2_add. cbn [use mbind outcome_bind].
    rewrite (check_inside_ok roff nbr rows coff nbc cols E Hr Hc HE e He) by lia. cbn [mbind outcome_bind].
    rewrite part_last. cbn [mbind outcome_bind]. unfold geo. cbn [g_ro g_co].
    destruct (wsub_row roff nbr rows coff nbc cols E Hr Hc HE e He Hrows) as [-> _].
    destruct (loc_inside _ _ _ _ _ _ _ Hr Hc HE e He) as [Hin1 Hin2].
    rewrite incr_step by (unfold loc; cbn [row]; lia). cbn [mbind outcome_bind].
    rewrite part_reset by done. cbn [mbind outcome_bind].
    pose proof (part_set (col <$> l) (length E) (col e)) as Hp1.
    rewrite fmap_length in Hp1. rewrite Hp1 by lia. cbn [mbind outcome_bind].
    pose proof (part_set (val <$> l) (length E) (val e)) as Hp2. rewrite fmap_length in Hp2. rewrite Hp2 by lia.
    cbn [mbind outcome_bind]. rewrite !fmap_app. done.
  Qed.
  Lemma csbr2_scan :
    wp (block_scan (csbr2_new (full roff) (full coff) nbc) csbr2_add E'
      (None, new_arr0 0 (S nbr), new_arr (length I), new_arr (length E), new_arr (length E))) (csbr2_inv E').
  Proof.
    apply block_scan_spec.
    - apply bsorted_ksorted.
    - by eapply blk_bound.
    - by rewrite bsorted_length.
    - unfold csbr2_inv. rewrite <- !part_nil, <- counters_nil. done.
    - intros l e s [r HE'] Hks Hl ->. destruct (prefix_facts roff nbr coff nbc E l e r HE') as (He & Hll & Hkl & Hkn & _).
      rewrite (prefix_new l e Hl), app_length in Hkn. cbn [length] in Hkn.
      pose proof (blk_in_bids roff nbr coff nbc E e He) as Hid.
      destruct (bids_range _ _ _ _ _ _ _ Hr Hc HE _ Hid) as (Hid1 & Hid2 & Hid3 & Hid4).
      destruct (geometry_range _ _ _ _ _ _ _ Hr Hc HE _ Hid) as (G1 & _).
      unfold csbr2_new. rewrite (block_geometry_ok roff nbr rows coff nbc cols E Hr Hc HE _ Hid) by lia. cbn [mbind outcome_bind].
      rewrite incr_step by first [exact Hid2|rewrite fmap_length; clear -Hkl Hll Hnnz; lia]. cbn [mbind outcome_bind].
      assert (wadd (g_rs (geo roff coff nbc (blk e))) 1 = S (rsz roff nbc (blk e))) as ->.
      { unfold wadd, geo. cbn [g_rs]. rewrite wrap_small; lia. }
      rewrite <- counters_nil.
      pose proof (part_set (per_block blk c2_rp l) (length I) (full (counters [] (rsz roff nbc (blk e))))) as Hp2.
      rewrite per_block_length in Hp2. rewrite Hp2 by lia. cbn [mbind outcome_bind wp].
      pose proof (csbr2_add_step l e r (per_block blk c2_rp l) []
         (full (counters (((fun id => id / nbc) <$> keys blk l) ++ [blk e / nbc]) nbr)) HE') as Hadd.
      rewrite per_block_length in Hadd. rewrite Hadd; [|lia|cbn; lia].
      cbn [wp]. unfold csbr2_inv. destruct (per_block_new blk c2_rp l e Hks Hl) as [Hpb Hlt]. rewrite Hpb, (prefix_new l e Hl).
      rewrite !fmap_app. cbn [fmap list_fmap]. rewrite last_snoc. done.
    - intros l e s [r HE'] Hks Hl ->. destruct (prefix_facts roff nbr coff nbc E l e r HE') as (He & Hll & Hkl & Hkn & _).
      rewrite (prefix_old l e Hl) in Hkn.
      destruct (per_block_old blk c2_rp l e Hks Hl) as (K & HK & Hp1 & Hp2).
      rewrite Hl. cbn [fmap option_fmap option_map]. rewrite Hp1.
      set (L := (fun j => c2_rp j (group blk j l)) <$> K) in *.
      assert (HLk : length (keys blk l) - 1 = length L). { unfold L. rewrite HK, app_length, fmap_length. cbn [length]. lia. }
      rewrite HK, app_length in Hkn. cbn [length] in Hkn.
      rewrite HLk. unfold c2_rp at 1. rewrite (csbr2_add_step l e r L ((fun e => row (lc e)) <$> group blk (blk e) l) _ HE').
      + cbn [wp]. unfold csbr2_inv. rewrite Hp2, (prefix_old l e Hl). rewrite !fmap_app. cbn [fmap list_fmap]. rewrite last_snoc.
        unfold c2_rp. rewrite fmap_app. done.
      + unfold L. rewrite fmap_length. lia.
      + rewrite fmap_length. apply group_length.
  Qed.

  Definition csbr2_matrix : csbr2 T :=
    Csbr2 rows cols (length E) nbr nbc (length I) (full roff) (full coff) (full (ptrs (brs roff nbr coff nbc E) nbr))
      (full (c2_rp_done <$> I)) (full (col <$> E')) (full (val <$> E')).

  (** the second loop *)
  Lemma csbr2_accumulate_ok k id : I !! k = Some id ->
    csbr2_accumulate (c2_rp id (blocks_at roff nbr coff nbc E id)) (rsz roff nbc id) (start_of (blk <$> E') I k) =
    Ok (c2_rp_done id, start_of (blk <$> E') I (S k)).
  Proof.
    intros Hk. assert (Hid : id ∈ I) by (by eapply elem_of_list_lookup_2).
    assert (HKI : forall q, q ∈ blk <$> E' -> q ∈ I) by (intros q (e & -> & He)%elem_of_list_fmap; by apply blk_in_bids).
    pose proof (start_S (blk <$> E') I (bids_sorted _ _ _ _ _) HKI k id Hk) as HS.
    set (K := (fun e => row (lc e)) <$> blocks_at roff nbr coff nbc E id).
    assert (HKlen : length K = cnteq (blk <$> E') id). { unfold K. rewrite fmap_length, cnteq_fmap. done. }
    assert (Hst : start_of (blk <$> E') I k = cntlt (blk <$> E') id) by (unfold start_of; by rewrite Hk).
    assert (Hbound : start_of (blk <$> E') I (S k) <= length E).
    { rewrite HS, Hst, <- cntlt_S. etrans; [apply cntlt_le|]. by rewrite fmap_length, bsorted_length. }
    pose proof (prefix_sum_base (start_of (blk <$> E') I k) K (rsz roff nbc id) ltac:(lia)) as Hps.
    unfold csbr2_accumulate, c2_rp. fold K.
    rewrite aset_full in * by (unfold counters; rewrite fmap_length, seq_length; lia). cbn [mbind outcome_bind] in *.
    rewrite Hps. cbn [mbind outcome_bind].
    rewrite aget_full. rewrite (lget_some _ _ (start_of (blk <$> E') I k + cntlt K (rsz roff nbc id))) by (rewrite fmap_seq_lookup by lia; done).
    cbn [mbind outcome_bind]. unfold c2_rp_done. fold K. rewrite <- Hst. do 2 f_equal. rewrite HS, <- HKlen. f_equal.
    apply cntlt_all. apply Forall_fmap, Forall_forall. intros e He.
    apply blocks_at_elem in He as [He Hb]. cbn. rewrite <- Hb. destruct (loc_inside _ _ _ _ _ _ _ Hr Hc HE e He) as [Hin1 Hin2]. lia.
  Qed.
  Lemma Coo_to_Csbr2_spec :
    Coo_to_Csbr2 (Coo rows cols E) (full roff) nbr (full coff) nbc = Ok (csbr2_matrix, Coo rows cols E').
  Proof.
    assert (Hpos : 0 < nbr /\ 0 < nbc).
    { destruct E as [|e0 l0]; [done|]. apply Forall_inv in HE. destruct HE as [He1 He2].
      pose proof (block_of_spec _ _ _ _ Hr He1) as [? _]. pose proof (block_of_spec _ _ _ _ Hc He2) as [? _]. lia. }
    assert (HI : length I <= length E) by apply bids_length.
    assert (Hnbr : nbr < itW /\ nbc < itW) by lia.
    unfold Coo_to_Csbr2. cbn [c_elems c_rows c_cols]. unfold c_nnz. cbn [c_elems].
    rewrite (calculate_block_id_numbered E roff nbr coff nbc rows cols) by (done || lia || apply Hids). cbn [mbind outcome_bind].
    rewrite sort_elements_blocks_spec. cbn [mbind outcome_bind]. fold (bsorted roff nbr coff nbc E).
    rewrite count_bids by done. cbn [mbind outcome_bind].
    rewrite (check_blocking_ok roff nbr rows coff nbc cols Hr Hc Hnr Hnc). cbn [mbind outcome_bind].
    assert (wadd nbr 1 = S nbr) as -> by (unfold wadd; rewrite wrap_small; lia).
    pose proof csbr2_scan as Hscan. apply wp_exists in Hscan as (st & Hst & ->). rewrite Hst. clear Hst. cbn [mbind outcome_bind].
    change (keys blk E') with I.
    rewrite !(part_full_len _ (length E)) by (by rewrite fmap_length, bsorted_length).
    rewrite (part_full_len (per_block blk c2_rp E')) by apply per_block_length.
    rewrite prefix_sum_spec by (rewrite fmap_length; lia). cbn [mbind outcome_bind].
    fold (brs roff nbr coff nbc E).
    set (init := (fun id => c2_rp id (blocks_at roff nbr coff nbc E id)) <$> I).
    change (per_block blk c2_rp E') with init. set (fin := c2_rp_done <$> I).
    pose (J := fun k (st : arr (arr nat) * nat) => st = (full (take k fin ++ drop k init), start_of (blk <$> E') I k)).
    assert (Hbrs : cntlt (brs roff nbr coff nbc E) nbr = length I).
    { rewrite cntlt_all; [apply fmap_length|by eapply brs_range]. }
    assert (HKI : forall q, q ∈ blk <$> E' -> q ∈ I) by (intros q (e & -> & He)%elem_of_list_fmap; by apply blk_in_bids).
    match goal with |- context [for_range 0 nbr ?b (full init, 0)] =>
      assert (Hloop : wp (for_range 0 nbr b (full init, 0)) (J (cntlt (brs roff nbr coff nbc E) nbr))) end.
    { apply (wp_for_range (fun br => J (cntlt (brs roff nbr coff nbc E) br))); [lia| |].
      - unfold J. rewrite cntlt_0. cbn [take drop app]. by rewrite (start_0 _ _ (bids_sorted _ _ _ _ _) HKI).
      - intros br st Hbr HJ. destruct st as [rps0 cnt0].
        pose proof (blocking_get _ _ _ br Hr ltac:(lia)) as A1. pose proof (blocking_get _ _ _ (S br) Hr ltac:(lia)) as A2.
        replace (br + 1) with (S br) by lia. rewrite A1, A2. cbn [mbind outcome_bind]. rewrite !ptrs_get by lia. cbn [mbind outcome_bind].
        pose proof (blocking_le _ _ _ (S br) Hr ltac:(lia)). pose proof (blocking_mono _ _ _ br (S br) Hr ltac:(lia) ltac:(lia)).
        rewrite wsub_small by lia.
        apply (wp_for_range J); [apply cntlt_mono; lia|exact HJ|].
        intros k st Hk ->. pose proof (brs_between _ (brs_sorted _ _ _ _ _) br k Hk) as Hbk.
        unfold brs in Hbk. rewrite list_lookup_fmap in Hbk. destruct (I !! k) as [id|] eqn:Hid; [|done]. injection Hbk as Hbk.
        assert (Hinit : init !! k = Some (c2_rp id (blocks_at roff nbr coff nbc E id))) by (unfold init; by rewrite list_lookup_fmap, Hid).
        assert (Hfin : fin !! k = Some (c2_rp_done id)) by (unfold fin; by rewrite list_lookup_fmap, Hid).
        assert (Htl : length (take k fin) = k). { rewrite take_length. pose proof (lookup_lt_Some _ _ _ Hfin). lia. }
        pose proof (lookup_lt_Some _ _ _ Hinit) as Hil.
        rewrite aget_full, (lget_some _ k (c2_rp id (blocks_at roff nbr coff nbc E id))).
        2:{ rewrite lookup_app_r by lia. rewrite Htl, Nat.sub_diag, lookup_drop, Nat.add_0_r. done. }
        cbn [mbind outcome_bind].
        assert (nth (S br) roff 0 - nth br roff 0 = rsz roff nbc id) as -> by (unfold rsz; by rewrite Hbk).
        rewrite (csbr2_accumulate_ok k id Hid). cbn [mbind outcome_bind].
        rewrite aset_full by (rewrite app_length, Htl, drop_length; lia). cbn [mbind outcome_bind wp]. unfold J. f_equal. f_equal.
        rewrite insert_app_r_alt by lia. rewrite Htl, Nat.sub_diag. rewrite (take_S_r _ _ _ Hfin), (drop_S _ _ _ Hinit). simpl.
        by rewrite <- app_assoc. }
    apply wp_exists in Hloop as (st & Hst & ->). rewrite Hst. cbn [mbind outcome_bind].
    rewrite ptrs_get by lia. cbn [mbind outcome_bind]. rewrite Hbrs, Nat.eqb_refl. cbn [assert_ mbind outcome_bind].
    assert (length fin = length I) by (unfold fin; apply fmap_length). assert (length init = length I) by (unfold init; apply fmap_length).
    rewrite take_ge, drop_ge, app_nil_r by lia. done.
  Qed.

  Lemma csbr2_spmv_spec x b y : cols <= length x -> length y = rows ->
    all_schedules (csbr2_spmv csbr2_matrix x b) (heap_of b y) tt (heap_of b (spmv_by_column E x y)).
  Proof.
    intros Hx Hy. unfold csbr2_spmv, csbr2_matrix. cbn [s2_blockrows s2_roff s2_ptr s2_rowptr s2_colind s2_val].
    apply (block_rows_spec roff nbr rows coff nbc cols E Hr Hc HE); [done|]. intros bi Hbi.
    replace (bi + 1) with (S bi) by lia.
    eapply performs_lift; [by apply (blocking_get _ _ _ bi Hr); lia|].
    eapply performs_lift; [by apply (blocking_get _ _ _ (S bi) Hr); lia|].
    pose proof (blocking_le _ _ _ (S bi) Hr ltac:(lia)). pose proof (blocking_mono _ _ _ bi (S bi) Hr ltac:(lia) ltac:(lia)).
    rewrite wsub_small by lia. cbv zeta.
    eapply performs_lift; [apply ptrs_get; lia|]. eapply performs_lift; [apply ptrs_get; lia|].
    unfold pfor_range.
    apply (performs_pfor _ _ _ _ _ _ _ (fun k r y => row_acc (blocks_at roff nbr coff nbc E (nth k I 0)) x (nth bi roff 0 + r) y)).
    intros k Hk. pose proof (cntlt_mono (brs roff nbr coff nbc E) bi (S bi) ltac:(lia)). pose proof (brs_between _ (brs_sorted roff nbr coff nbc E) bi k ltac:(lia)) as Hbk.
    unfold brs in Hbk. rewrite list_lookup_fmap in Hbk. destruct (I !! k) as [id|] eqn:Hid; [|done]. injection Hbk as Hbk.
    rewrite (nth_lookup_Some I k 0 id Hid).
    eapply performs_lift; [rewrite aget_full; apply lget_some; rewrite list_lookup_fmap, Hid; reflexivity|].
    assert (nth (S bi) roff 0 - nth bi roff 0 = rsz roff nbc id) as -> by (unfold rsz; by rewrite Hbk).
    set (f := fun e => Elem (row (lc e)) (col e) (val e) (blk e)). set (L := f <$> blocks_at roff nbr coff nbc E id).
    assert (HrowL : (fun e => row (lc e)) <$> blocks_at roff nbr coff nbc E id = row <$> L) by (unfold L; by rewrite <- list_fmap_compose).
    assert (Hrp : forall i, i <= rsz roff nbc id -> aget (c2_rp_done id) i = Ok (cntlt (blk <$> E') id + cntlt (row <$> L) i)).
    { intros i Hi. unfold c2_rp_done. rewrite aget_full. apply lget_some. rewrite fmap_seq_lookup by lia. by rewrite HrowL. }
    eapply performs_ext; [|eapply (performs_spmv_csr_serial _ 0 _ _ _ _ (fun i => bfilter (in_row i) L) cols); [|intros i Hi|lia|]].
    - intros r z Hrr. cbv beta. change (fold_left (accum (drop 0 x)) (bfilter (in_row r) L) z) with (row_acc L (drop 0 x) r z).
      unfold L. assert (nth bi roff 0 = ro roff nbc id) as -> by (unfold ro; by rewrite Hbk).
      apply row_acc_rebase. apply Forall_forall. intros e He. apply blocks_at_elem in He as [He Hb]. cbn.
      destruct (loc_inside _ _ _ _ _ _ _ Hr Hc HE e He) as [Hin1 Hin2]. rewrite Hb in *. split; [lia|done].
    - apply (csr_rep_at L _ (cntlt (blk <$> E') id)).
      + pose proof (blocks_at_sorted roff nbr coff nbc E id) as Hs. unfold ksorted in *. unfold L.
        rewrite StronglySorted_fmap_iff in *. exact Hs.
      + exact Hrp.
      + intros j e He. unfold L in He. rewrite list_lookup_fmap in He. destruct (blocks_at roff nbr coff nbc E id !! j) as [e0|] eqn:He0; [|done].
        injection He as <-. apply blocks_at_lookup in He0. rewrite Nat.add_0_l.
        rewrite !aget_full. split; apply lget_some; rewrite list_lookup_fmap, He0; done.
    - apply Forall_forall. intros e He. apply elem_of_list_In, filter_In in He as [He _]. apply elem_of_list_In in He.
      unfold L in He. apply elem_of_list_fmap in He as (e0 & -> & He0). apply blocks_at_elem in He0 as [He0 _]. cbn.
      by destruct (bsorted_elem _ _ _ _ _ _ _ HE e0 He0) as (_ & ? & _).
    - intros Hz. eexists. apply Hrp. lia.
  Qed.
End csbr2.
