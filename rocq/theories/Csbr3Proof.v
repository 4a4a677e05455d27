(** Csbr3Proof.v: proofs about Csbr3 (Csbr.v) *)
From Verif Require Export Csbr Csbr2Proof.
From Coq Require Import ZifyNat ZifyBool.

(** blocks of one size, the last one may be smaller *)
Definition ceil_nb (dim size : nat) : nat := (dim + size - 1) / size.
Definition ceil_off (dim size : nat) : list nat := (fun k => (k * size) `min` dim) <$> seq 0 (S (ceil_nb dim size)).
Lemma ceil_nb_bound dim size : 0 < size -> dim <= ceil_nb dim size * size /\ (0 < ceil_nb dim size -> (ceil_nb dim size - 1) * size < dim).
Proof.
  intros Hs. unfold ceil_nb. pose proof (Nat.div_mod (dim + size - 1) size ltac:(lia)) as Hdm.
  pose proof (Nat.mod_upper_bound (dim + size - 1) size ltac:(lia)).
  generalize dependent ((dim + size - 1) / size). intros q. generalize dependent ((dim + size - 1) mod size). intros m Hm Hq.
  split; [nia|]. intros Hq0. destruct q; [lia|]. nia.
Qed.
Lemma ceil_off_nth dim size b : b <= ceil_nb dim size -> nth b (ceil_off dim size) 0 = (b * size) `min` dim.
Proof. intros Hb. apply nth_lookup_Some. unfold ceil_off. rewrite fmap_seq_lookup by lia. done. Qed.
Lemma ceil_off_lt dim size b : 0 < size -> b < ceil_nb dim size -> nth b (ceil_off dim size) 0 = b * size /\ b * size < dim.
Proof.
  intros Hs Hb. rewrite ceil_off_nth by lia. destruct (ceil_nb_bound dim size Hs) as [_ H2].
  specialize (H2 ltac:(lia)). assert (b * size < dim) by nia. split; [lia|done].
Qed.
Lemma ceil_off_blocking dim size : 0 < size -> blocking (ceil_off dim size) (ceil_nb dim size) dim.
Proof.
  intros Hs. destruct (ceil_nb_bound dim size Hs) as [H1 _]. unfold blocking. rewrite !ceil_off_nth by lia.
  split; [unfold ceil_off; rewrite fmap_length, seq_length; lia|]. split; [lia|]. split; [lia|].
  intros b Hb. rewrite !ceil_off_nth by lia. lia.
Qed.
Lemma ceil_block_of dim size i : 0 < size -> i < dim -> block_of (ceil_off dim size) (ceil_nb dim size) i = i / size.
Proof.
  intros Hs Hi. pose proof (Nat.div_mod i size ltac:(lia)) as Hdm. pose proof (Nat.mod_upper_bound i size ltac:(lia)) as Hm.
  destruct (ceil_nb_bound dim size Hs) as [H1 _].
  assert (Hlt : i / size < ceil_nb dim size). { generalize dependent (i / size). intros q Hq. nia. }
  eapply block_of_unique; [by apply ceil_off_blocking|done|]. unfold in_block. rewrite !ceil_off_nth by lia.
  generalize dependent (i / size). intros q Hq. nia.
Qed.

Section csbr3.
  Context {T : Type} `{Scalar T} `{Widths}.
  Context (rows cols bs : nat) (E : list (elem T)).
  Notation nbr := (ceil_nb rows bs).
  Notation nbc := (ceil_nb cols bs).
  Notation roff := (ceil_off rows bs).
  Notation coff := (ceil_off cols bs).
  Context (Hbs : 0 < bs) (HE : in_range rows cols E) (Hne : E <> []) (Hids : nbr * nbc < itW).
  Context (Hrows : rows + bs < itW) (Hcols : cols + bs < itW) (Hnnz : length E + 1 < itW).
  Let Hr : blocking roff nbr rows := ceil_off_blocking rows bs Hbs.
  Let Hc : blocking coff nbc cols := ceil_off_blocking cols bs Hbs.
  Notation E' := (bsorted roff nbr coff nbc E).
  Notation I := (bids roff nbr coff nbc E).
  Notation lc := (loc roff coff nbc).
  Implicit Types (l : list (elem T)) (e : elem T).

  Lemma calculate_block_id_const_spec : calculate_block_id_const E bs bs nbc = Ok (with_ids roff nbr coff nbc E).
  Proof.
    unfold calculate_block_id_const, with_ids.
    erewrite <- (map_loop (fun e => br ← div_ (row e) bs; bc ← div_ (col e) bs; Ok (set_blk (wadd (wmul br nbc) bc) e))).
    - apply for_n_ext. intros i s _. destruct (lget s i) as [e| | |]; try done. cbn [mbind outcome_bind].
      rewrite !div_ok by done. done.
    - intros e He. pose proof HE as HE2. unfold in_range in HE2. rewrite Forall_forall in HE2. destruct (HE2 e He) as [Hre Hce].
      rewrite !div_ok by done. cbn [mbind outcome_bind]. do 2 f_equal.
      pose proof (block_id_lt roff nbr coff nbc rows cols e Hr Hc Hre Hce) as Hlt. unfold block_id in *.
      rewrite !ceil_block_of in * by done. unfold wadd, wmul.
      generalize dependent (row e / bs). generalize dependent (col e / bs). intros q q' Hlt.
      rewrite (wrap_small (_ * nbc)) by lia. apply wrap_small. lia.
  Qed.
  Lemma offsets_ok id : id ∈ I -> wmul (id / nbc) bs = ro roff nbc id /\ wmul (id mod nbc) bs = co coff nbc id /\
    ro roff nbc id + bs < itW /\ co coff nbc id + bs < itW /\ rsz roff nbc id <= bs /\ csz coff nbc id <= bs.
  Proof.
    intros Hid. destruct (bids_range _ _ _ _ _ _ _ Hr Hc HE id Hid) as (_ & H1 & H2 & _).
    unfold ro, co, rsz, csz. generalize dependent (id / nbc). generalize dependent (id mod nbc). intros bc Hbc br Hbr.
    pose proof (ceil_off_nth rows bs (S br) ltac:(lia)) as R2. pose proof (ceil_off_nth cols bs (S bc) ltac:(lia)) as C2.
    destruct (ceil_off_lt rows bs br Hbs Hbr) as [R1 R3]. destruct (ceil_off_lt cols bs bc Hbs Hbc) as [C1 C3].
    rewrite R1, R2, C1, C2. unfold wmul. rewrite !wrap_small by lia. lia.
  Qed.

  Definition csbr3_inv l (st : csbr3_st (T := T)) : Prop :=
    st = ((fun id => (ro roff nbc id, co coff nbc id)) <$> last (blk <$> l), full (counters ((fun id => id / nbc) <$> keys blk l) nbr),
          part ((fun id => cntlt (blk <$> E') id) <$> keys blk l) (length I) ++ [Some (length E)],
          part ((fun id => id mod nbc) <$> keys blk l) (length I),
          part ((fun e => swrap (row (lc e))) <$> l) (length E), part ((fun e => swrap (col (lc e))) <$> l) (length E), part (val <$> l) (length E)).

  Lemma csbr3_add_step l e r k (ptr bptr ind : arr nat) : E' = l ++ e :: r ->
    csbr3_add bs k (length l) e (Some (ro roff nbc (blk e), co coff nbc (blk e)), ptr, bptr, ind,
      part ((fun e => swrap (row (lc e))) <$> l) (length E), part ((fun e => swrap (col (lc e))) <$> l) (length E), part (val <$> l) (length E)) =
    Ok (Some (ro roff nbc (blk e), co coff nbc (blk e)), ptr, bptr, ind,
      part ((fun e => swrap (row (lc e))) <$> (l ++ [e])) (length E), part ((fun e => swrap (col (lc e))) <$> (l ++ [e])) (length E), part (val <$> (l ++ [e])) (length E)).
  Proof.
    intros HE'. destruct (prefix_facts roff nbr coff nbc E l e r HE') as (He & Hl & _ & _ & _).
    destruct (offsets_ok (blk e)) as (_ & _ & O1 & O2 & O3 & O4); [by apply (blk_in_bids roff nbr coff nbc E)|].
    destruct (loc_inside _ _ _ _ _ _ _ Hr Hc HE e He) as [Hin1 Hin2].
    unfold csbr3_add. cbn [use mbind outcome_bind]. unfold wadd. rewrite !wrap_small by lia.
    rewrite (proj2 (Nat.leb_le _ _)), (proj2 (Nat.ltb_lt _ _)), (proj2 (Nat.leb_le _ _)), (proj2 (Nat.ltb_lt _ _)) by lia.
    cbn [assert_ mbind outcome_bind].
    destruct (wsub_row roff nbr rows coff nbc cols E Hr Hc HE e He ltac:(lia)) as [_ ->].
    rewrite (wsub_col roff nbr rows coff nbc cols E Hr Hc HE e He) by lia.
    pose proof (part_set ((fun e => swrap (row (lc e))) <$> l) (length E) (swrap (row (lc e)))) as Hp0. rewrite fmap_length in Hp0. rewrite Hp0 by lia. cbn [mbind outcome_bind].
    pose proof (part_set ((fun e => swrap (col (lc e))) <$> l) (length E) (swrap (col (lc e)))) as Hp1. rewrite fmap_length in Hp1. rewrite Hp1 by lia. cbn [mbind outcome_bind].
    pose proof (part_set (val <$> l) (length E) (val e)) as Hp2. rewrite fmap_length in Hp2. rewrite Hp2 by lia. cbn [mbind outcome_bind].
    rewrite !fmap_app. done.
  Qed.
  Lemma csbr3_scan :
    wp (block_scan (csbr3_new bs nbc) (csbr3_add bs) E'
      (None, new_arr0 0 (S nbr), new_arr (length I) ++ [Some (length E)], new_arr (length I), new_arr (length E), new_arr (length E), new_arr (length E))) (csbr3_inv E').
  Proof.
    apply block_scan_spec.
    - apply bsorted_ksorted.
    - eapply blk_bound, numbered_small; eassumption.
    - rewrite bsorted_length. lia.
    - unfold csbr3_inv. rewrite <- !part_nil, <- counters_nil. done.
    - intros l e s [r HE'] Hks Hl ->. destruct (prefix_facts roff nbr coff nbc E l e r HE') as (He & Hll & Hkl & Hkn & _).
      rewrite (prefix_new l e Hl), app_length in Hkn. cbn [length] in Hkn.
      pose proof (blk_in_bids roff nbr coff nbc E e He) as Hid.
      destruct (bids_range _ _ _ _ _ _ _ Hr Hc HE _ Hid) as (Hid1 & Hid2 & Hid3 & Hid4).
      destruct (offsets_ok (blk e) Hid) as (O1 & O2 & _).
      destruct (per_block_new blk (fun (_ : nat) (_ : list (elem T)) => 0) l e Hks Hl) as [_ Hlt].
      unfold csbr3_new. rewrite div_ok, mod_ok by done. cbn [mbind outcome_bind].
      assert (Hpl : length (part ((fun id => cntlt (blk <$> E') id) <$> keys blk l) (length I)) = length I) by (apply part_length; rewrite fmap_length; lia).
      rewrite (aset_ok (_ ++ _)) by (rewrite app_length, Hpl; cbn [length]; lia). cbn [mbind outcome_bind].
      rewrite insert_app_l by (rewrite Hpl; lia).
      pose proof (part_set ((fun id => cntlt (blk <$> E') id) <$> keys blk l) (length I) (length l)) as Hp0. rewrite fmap_length in Hp0.
      specialize (Hp0 ltac:(lia)). rewrite aset_ok in Hp0 by (rewrite Hpl; lia). injection Hp0 as Hp0. rewrite Hp0.
      pose proof (part_set ((fun id => id mod nbc) <$> keys blk l) (length I) (blk e mod nbc)) as Hp1.
      rewrite fmap_length in Hp1. rewrite Hp1 by lia. cbn [mbind outcome_bind].
      rewrite incr_step by first [exact Hid2|rewrite fmap_length; clear -Hkl Hll Hnnz; lia]. cbn [mbind outcome_bind wp].
      rewrite O1, O2. rewrite (csbr3_add_step l e r _ _ _ _ HE'). cbn [wp]. unfold csbr3_inv. rewrite (prefix_new l e Hl).
      rewrite !fmap_app. cbn [fmap list_fmap]. rewrite last_snoc. rewrite (pos_new roff nbr coff nbc E l e r HE' Hlt). done.
    - intros l e s [r HE'] Hks Hl ->. rewrite Hl. cbn [fmap option_fmap option_map].
      rewrite (csbr3_add_step l e r _ _ _ _ HE'). cbn [wp]. unfold csbr3_inv. rewrite (prefix_old l e Hl).
      rewrite !fmap_app. cbn [fmap list_fmap]. rewrite last_snoc. done.
  Qed.
  (** what is built: positions inside the blocks modulo the size of the short type *)
  Definition csbr3_cut : csbr3 T :=
    Csbr3 rows cols (length E) nbr nbc (length I) bs (full (((fun id => cntlt (blk <$> E') id) <$> I) ++ [length E]))
      (full ((fun id => id mod nbc) <$> I)) (full (ptrs (brs roff nbr coff nbc E) nbr))
      (full ((fun e => swrap (row (lc e))) <$> E')) (full ((fun e => swrap (col (lc e))) <$> E')) (full (val <$> E')).
  Lemma Coo_to_Csbr3_cut : Coo_to_Csbr3 (Coo rows cols E) bs = Ok (csbr3_cut, Coo rows cols E').
  Proof.
    assert (HI : length I <= length E) by apply bids_length.
    assert (Hpos : 0 < nbr /\ 0 < nbc).
    { destruct E as [|e0 l0]; [done|]. apply Forall_inv in HE. destruct HE as [He1 He2].
      pose proof (block_of_spec _ _ _ _ Hr He1) as [? _]. pose proof (block_of_spec _ _ _ _ Hc He2) as [? _]. lia. }
    unfold Coo_to_Csbr3. cbn [c_elems c_rows c_cols]. unfold c_nnz. cbn [c_elems].
    assert (wadd rows bs = rows + bs) as -> by (unfold wadd; rewrite wrap_small; lia).
    assert (wadd cols bs = cols + bs) as -> by (unfold wadd; rewrite wrap_small; lia).
    rewrite !wsub_small by lia. rewrite !div_ok by done. cbn [mbind outcome_bind].
    fold (ceil_nb rows bs). fold (ceil_nb cols bs).
    rewrite calculate_block_id_const_spec. cbn [mbind outcome_bind].
    rewrite sort_elements_blocks_spec. cbn [mbind outcome_bind]. fold (bsorted roff nbr coff nbc E).
    rewrite count_bids by (done || lia). cbn [mbind outcome_bind].
    assert (Hnbr : nbr + 1 < itW).
    { destruct (ceil_nb_bound rows bs Hbs) as [_ Hb]. specialize (Hb ltac:(lia)). nia. }
    assert (wadd nbr 1 = S nbr) as -> by (unfold wadd; rewrite wrap_small; lia).
    assert (wadd (length I) 1 = length I + 1) as -> by (unfold wadd; rewrite wrap_small; lia).
    rewrite aset_ok by (unfold new_arr; rewrite replicate_length; lia). cbn [mbind outcome_bind].
    assert (<[length I := Some (length E)]> (new_arr (length I + 1)) = new_arr (length I) ++ [Some (length E)]) as ->.
    { unfold new_arr. rewrite replicate_add, insert_app_r_alt by (rewrite replicate_length; lia).
      rewrite replicate_length, Nat.sub_diag. done. }
    pose proof csbr3_scan as Hscan. apply wp_exists in Hscan as (st & Hst & ->). rewrite Hst. clear Hst. cbn [mbind outcome_bind].
    change (keys blk E') with I.
    rewrite !(part_full_len _ (length E)) by (by rewrite fmap_length, bsorted_length).
    rewrite !(part_full_len _ (length I)) by apply fmap_length.
    rewrite prefix_sum_spec by (rewrite fmap_length; lia). cbn [mbind outcome_bind].
    fold (brs roff nbr coff nbc E). rewrite ptrs_get by lia. cbn [mbind outcome_bind].
    rewrite cntlt_all; [|by eapply brs_range]. assert (length (brs roff nbr coff nbc E) = length I) as -> by apply fmap_length. rewrite Nat.eqb_refl. cbn [assert_ mbind outcome_bind].
    unfold csbr3_cut. do 3 f_equal. unfold full. rewrite !fmap_app. done.
  Qed.


  Definition csbr3_matrix : csbr3 T :=
    Csbr3 rows cols (length E) nbr nbc (length I) bs (full (((fun id => cntlt (blk <$> E') id) <$> I) ++ [length E]))
      (full ((fun id => id mod nbc) <$> I)) (full (ptrs (brs roff nbr coff nbc E) nbr))
      (full ((fun e => row (lc e)) <$> E')) (full ((fun e => col (lc e)) <$> E')) (full (val <$> E')).
  Context (Hshort : bs <= sitW).
  Lemma Coo_to_Csbr3_spec : Coo_to_Csbr3 (Coo rows cols E) bs = Ok (csbr3_matrix, Coo rows cols E').
  Proof.
    rewrite Coo_to_Csbr3_cut. unfold csbr3_cut, csbr3_matrix.
    assert (Hin : Forall (fun e => row (lc e) < sitW /\ col (lc e) < sitW) E').
    { apply Forall_forall. intros e He. destruct (offsets_ok (blk e)) as (_ & _ & O1 & O2 & O3 & O4); [by apply (blk_in_bids roff nbr coff nbc E)|].
      destruct (loc_inside _ _ _ _ _ _ _ Hr Hc HE e He) as [Hin1 Hin2]. unfold loc. cbn [row col]. lia. }
    assert (R1 : (fun e => swrap (row (lc e))) <$> E' = (fun e => row (lc e)) <$> E').
    { apply Forall_fmap_ext_1. eapply Forall_impl; [exact Hin|]. cbv beta. intros e [H1 _]. by apply swrap_small. }
    assert (R2 : (fun e => swrap (col (lc e))) <$> E' = (fun e => col (lc e)) <$> E').
    { apply Forall_fmap_ext_1. eapply Forall_impl; [exact Hin|]. cbv beta. intros e [_ H1]. by apply swrap_small. }
    by rewrite R1, R2.
  Qed.

  (** Csbr3 seen through the interface of the generic kernels *)
  Definition csbr3_view (A : csbr3 T) : blocked T :=
    {| bk_blockrows := s3_blockrows A; bk_ptr := s3_ptr A; bk_ind := s3_ind A; bk_nnz := s3_nnz A;
       bk_roff := fun i => Ok (wmul i (s3_block_size A)); bk_coff := fun i => Ok (wmul i (s3_block_size A));
       bk_nonzeros := fun k => Ok 0;
       bk_spmv := fun k x xo b o =>
         block_start ← lift (aget (s3_block_ptr A) k); block_end ← lift (aget (s3_block_ptr A) (k + 1));
         spmv_coo (s3_val A) (s3_rowind A) (s3_colind A) block_start (wsub block_end block_start) x xo b o |}.
  Lemma csbr3_chunk_eq fuel A x chunks : forall first last b o π,
    csbr3_spmv_chunk fuel A x chunks first last b o π = spmv_chunk fuel (csbr3_view A) x chunks first last (s3_block_size A) b o π.
  Proof.
    induction fuel as [|f IH]; intros first last b o π; [done|]. cbn [csbr3_spmv_chunk spmv_chunk].
    destruct (wsub last first =? 1); [reflexivity|]. rewrite !IH. reflexivity.
  Qed.
  Lemma csbr3_balanced_eq A x b : csbr3_spmv_balanced A x b = spmv_balanced (csbr3_view A) x b.
  Proof. reflexivity. Qed.

  Lemma csbr3_block_does x k id : cols <= length x -> I !! k = Some id ->
    block_does (csbr3_view csbr3_matrix) x k (rsz roff nbc id) (fun r => row_acc (blocks_at roff nbr coff nbc E id) x (ro roff nbc id + r)).
  Proof.
    intros Hx Hk b o. unfold one_block, csbr3_view, csbr3_matrix. cbn [bk_ind bk_coff bk_spmv s3_ind s3_block_size s3_block_ptr s3_val s3_rowind s3_colind].
    assert (Hid : id ∈ I) by (by eapply elem_of_list_lookup_2).
    destruct (offsets_ok id Hid) as (_ & O2 & _).
    destruct (geometry_range _ _ _ _ _ _ _ Hr Hc HE id Hid) as (G1 & G2 & _).
    pose proof (lookup_lt_Some _ _ _ Hk) as Hkl.
    assert (HKI : forall q, q ∈ blk <$> E' -> q ∈ I) by (intros q (e & -> & He)%elem_of_list_fmap; by apply blk_in_bids).
    assert (Hst : forall j, j <= length I ->
      aget (full (((fun id => cntlt (blk <$> E') id) <$> I) ++ [length E])) j = Ok (start_of (blk <$> E') I j)).
    { intros j Hj. rewrite aget_full. apply lget_some. unfold start_of. destruct (I !! j) as [i|] eqn:Hi.
      - rewrite lookup_app_l by (rewrite fmap_length; by eapply lookup_lt_Some). by rewrite list_lookup_fmap, Hi.
      - apply lookup_ge_None_1 in Hi. rewrite lookup_app_r by (rewrite fmap_length; lia). rewrite !fmap_length, bsorted_length.
        by replace (j - length I) with 0 by lia. }
    pose proof (start_S (blk <$> E') I (bids_sorted _ _ _ _ _) HKI k id Hk) as HS.
    assert (Hcnt : cnteq (blk <$> E') id = length (blocks_at roff nbr coff nbc E id)) by (rewrite cnteq_fmap; done).
    assert (Hbound : start_of (blk <$> E') I (S k) <= length E).
    { unfold start_of in *. rewrite Hk in HS. rewrite HS, <- cntlt_S. etrans; [apply cntlt_le|]. by rewrite fmap_length, bsorted_length. }
    eapply performs_lift; [rewrite aget_full; apply lget_some; rewrite list_lookup_fmap, Hk; reflexivity|].
    eapply performs_lift; [rewrite O2; reflexivity|].
    eapply performs_lift; [apply Hst; lia|]. eapply performs_lift; [apply Hst; lia|].
    replace (k + 1) with (S k) by lia. rewrite wsub_small by lia. rewrite HS, Hcnt.
    replace (start_of (blk <$> E') I k + length (blocks_at roff nbr coff nbc E id) - start_of (blk <$> E') I k)
      with (length (lc <$> blocks_at roff nbr coff nbc E id)) by (rewrite fmap_length; lia).
    eapply performs_ext; [|eapply (performs_spmv_coo _ _ _ _ _ _ (csz coff nbc id)); [|by eapply loc_range|lia]].
    - intros r y Hrr. cbv beta. by eapply loc_row_acc.
    - intros j e He. rewrite list_lookup_fmap in He. destruct (blocks_at roff nbr coff nbc E id !! j) as [e0|] eqn:He0; [|done].
      injection He as <-. apply blocks_at_lookup in He0. unfold start_of. rewrite Hk, !aget_full.
      split; [|split]; apply lget_some; rewrite list_lookup_fmap, He0; done.
  Qed.
  Lemma csbr3_balanced x b y : cols <= length x -> length y = rows ->
    all_schedules (csbr3_spmv_balanced csbr3_matrix x b) (heap_of b y) tt (heap_of b (spmv_by_column E x y)).
  Proof.
    intros Hx Hy. rewrite csbr3_balanced_eq.
    apply (block_rows_spec roff nbr rows coff nbc cols E Hr Hc HE); [done|]. intros bi Hbi.
    cbn [csbr3_view csbr3_matrix bk_ptr bk_roff s3_ptr s3_block_size].
    destruct (ceil_off_lt rows bs bi Hbs Hbi) as [R1 R3].
    eapply performs_lift; [apply ptrs_get; lia|]. eapply performs_lift; [apply ptrs_get; lia|].
    eapply performs_lift; [reflexivity|]. unfold wmul. rewrite wrap_small by lia. rewrite <- R1.
    unfold pfor_range. replace (bi + 1) with (S bi) by lia.
    apply (performs_pfor _ _ _ _ _ _ _ (fun k r y => row_acc (blocks_at roff nbr coff nbc E (nth k I 0)) x (nth bi roff 0 + r) y)).
    intros k Hk. pose proof (cntlt_mono (brs roff nbr coff nbc E) bi (S bi) ltac:(lia)).
    pose proof (brs_between _ (brs_sorted roff nbr coff nbc E) bi k ltac:(lia)) as Hbk.
    unfold brs in Hbk. rewrite list_lookup_fmap in Hbk. destruct (I !! k) as [id|] eqn:Hid; [|done]. injection Hbk as Hbk.
    rewrite (nth_lookup_Some I k 0 id Hid).
    pose proof (csbr3_block_does x k id Hx Hid b (0 + nth bi roff 0)) as Hd. unfold rsz, ro in Hd. rewrite Hbk in Hd. exact Hd.
  Qed.
End csbr3.
