(** Properties_Bcsr2.v: C75, C76: the Csbr constructor from struct-of-arrays coordinates and the
    Bcsr reader; examples for C24, C32, C33. *)
From Verif Require Import DenseProof Cgbr3Proof Csbr3Chunk BlockIoProof Properties_Utils Properties_Simple Properties_Blocked Properties_Reuse Properties_Bcsr
  Properties_Cgbr Properties_BlockIo Properties_Structure.

(** ** C75: Csbr from a Coo2 matrix (include/matrix/csbr.h:88-191) passes its checks and then
    leaves the offsets array in its sorting step, for every matrix *)
Theorem C75_coo2_csbr_refuted `{Widths} {T} (B : coo T) (roff coff : list nat) (nbr nbc : nat) :
  blockable B roff nbr coff nbc -> Coo2_to_Csbr_sort B (full roff) nbr (full coff) nbc = Undef OutOfBounds.
Proof.
  destruct B as [rows cols E]. intros (Hne & HE & Hr & Hc & H1 & H2 & H3 & H4 & H5 & H6). unfold c_nnz in *. cbn [c_rows c_cols c_elems] in *.
  unfold Coo2_to_Csbr_sort. cbn [c_rows c_cols c_elems]. rewrite (check_blocking_ok roff nbr rows coff nbc cols Hr Hc H1 H2). cbn [mbind outcome_bind].
  eapply C12_sort_triplets_blocks_refuted; [exact Hr| |].
  - destruct E as [|e0 E]; [done|]. apply Forall_inv in HE as [He _]. destruct (block_of_spec _ _ _ _ Hr He). lia.
  - eapply Forall_impl; [exact HE|]. by intros e [He _].
Qed.

Section C76.
  Context {T : Type} `{Scalar T} `{Widths} (RT : repr T) (k umax : nat).
  Implicit Types (B : coo T) (roff coff : list nat).

  Lemma for_ret_inv {S R} (J : S -> Prop) n i (body : nat -> S -> outcome (S + R)) st st' : J st ->
    (forall i s s', J s -> body i s = Ok (inl s') -> J s') -> for_ret_n n i body st = Ok (inl st') -> J st'.
  Proof.
    intros HJ Hs. revert i st HJ. induction n as [|n IH]; intros i st HJ Hr; cbn [for_ret_n] in Hr; [by injection Hr as <-|].
    apply bsplit in Hr as ([s|c] & Hb & Hr); [|done]. by eapply IH; [eapply Hs|].
  Qed.
  Definition no_rows (b : bblock) : Prop := bb_rows b = Some 0 /\ bb_pos b = None.
  Lemma lset_Forall {A} (P : A -> Prop) l i a l' : Forall P l -> P a -> lset l i a = Ok l' -> Forall P l'.
  Proof. unfold lset. intros Hl Ha Hs. destruct (decide (i < length l)); [|done]. injection Hs as <-. by apply Forall_insert. Qed.
  Lemma lget_Forall {A} (P : A -> Prop) (l : list A) i a : Forall P l -> lget l i = Ok a -> P a.
  Proof. unfold lget. intros Hl Ha. destruct (l !! i) eqn:Hi; [|done]. injection Ha as ->. rewrite Forall_lookup in Hl. by eapply Hl. Qed.

  (** ** C76: whatever the file and the blocking, in a Bcsr matrix that the reader returns with
      success every block says that it has no rows and has no values *)
  Theorem C76_blocks_without_rows_refuted (file : option bytes) (roff : arr nat) nbr (coff : arr nat) nbc code (A : bcsr T) :
    read_bin_blocked_bcsr RT k umax file roff nbr coff nbc = Ok (code, Some A) ->
    code = 0%Z /\ Forall (fun b => bb_rows b = Some 0 /\ bb_pos b = None) (bs_blocks A).
  Proof.
    unfold read_bin_blocked_bcsr. intros Hr. apply bsplit in Hr as ([[[[rows columns] nnz] nnzblocks] f] & _ & Hr). cbv zeta in Hr.
    apply bsplit in Hr as (blocks & Hb & Hr).
    assert (Hblocks : Forall no_rows blocks).
    { apply (for_range_ok_inv (fun i bs => Forall (fun b => bb_pos b = None) bs /\ Forall no_rows (take i bs) /\ length bs = wmul nbr nbc)) in Hb.
      - destruct Hb as (_ & Hb & Hl). by rewrite take_ge in Hb by lia.
      - lia.
      - split; [|split; [constructor|apply replicate_length]]. apply Forall_forall. intros b Hin. apply elem_of_replicate in Hin as [-> _]. done.
      - intros i bs bs' Hi (J1 & J2 & J3) Hs. apply bsplit in Hs as (B & Hg & Hs). pose proof (lget_Forall _ _ _ _ J1 Hg) as HB.
        unfold lset in Hs. destruct (decide (i < length bs)) as [Hlt|]; [|done]. injection Hs as <-.
        split; [by apply Forall_insert|]. split; [|by rewrite insert_length].
        rewrite (take_S_r _ i (BBlock (Some 0) (bb_pos B) (bb_ptr B))) by (by apply list_lookup_insert).
        apply Forall_app. split; [|by repeat constructor]. by rewrite take_insert by lia. }
    apply bsplit in Hr as (r & Hrec & Hr).
    destruct r as [[[[bi pb] f'] [[[g blocks2] ci] v]]|c]; [|done].
    assert (Hb2 : Forall no_rows blocks2).
    { unfold read_records, for_ret in Hrec.
      refine (for_ret_inv (fun st : nat * nat * bytes * rbcsr_st => Forall no_rows st.2.1.1.2) _ _ _ _ _ _ _ Hrec); [exact Hblocks|].
      clear. intros i [[[bi pb] f] st] [[[bi' pb'] f'] st'] HJ Hs. cbn [snd fst] in *.
      destruct (fread_record RT k f) as [[e|] f2]; [|done]. cbn beta iota in Hs. apply bsplit in Hs as ([[bi2 pb2] st2] & Hn & Hs).
      apply bsplit in Hs as (st3 & Ha & Hs). injection Hs as <- <- <- <-.
      assert (H2 : Forall no_rows st2.1.1.2).
      { destruct (blk e =? pb); [by injection Hn as <- <- <-|]. apply bsplit in Hn as (u & _ & Hn). cbv zeta in Hn.
        apply bsplit in Hn as (st4 & Hn & Heq). injection Heq as <- <- <-. destruct st as [[[g bs] ci] v]. unfold rbcsr_new in Hn.
        apply bsplit in Hn as ([[br bc] [[ro rs] co]] & _ & Hn). apply bsplit in Hn as (B & HB & Hn). apply bsplit in Hn as (bs' & Hset & Hn).
        injection Hn as <-. cbn [fst snd] in *. eapply lset_Forall; [exact HJ| |exact Hset]. exact (lget_Forall _ _ _ _ HJ HB). }
      destruct st2 as [[[g bs] ci] v]. unfold rbcsr_add in Ha. apply bsplit in Ha as ([[ro rs] co] & _ & Ha). apply bsplit in Ha as (u & _ & Ha).
      apply bsplit in Ha as (B & HB & Ha). apply bsplit in Ha as (rp & _ & Ha). apply bsplit in Ha as (rp' & _ & Ha). apply bsplit in Ha as (bs' & Hset & Ha).
      apply bsplit in Ha as (ci' & _ & Ha). apply bsplit in Ha as (v' & _ & Ha). injection Ha as <-. cbn [fst snd] in *.
      eapply lset_Forall; [exact H2| |exact Hset]. exact (lget_Forall _ _ _ _ H2 HB). }
    apply bsplit in Hr as (blocks3 & Hb3 & Hr). injection Hr as <- <-. split; [done|]. cbn [bs_blocks].
    apply (for_range_ok_inv (fun _ bs => Forall no_rows bs)) in Hb3; [exact Hb3|lia|exact Hb2|].
    intros i bs bs' _ HJ Hs. apply bsplit in Hs as (B & HB & Hs). destruct (lget_Forall _ _ _ _ HJ HB) as [HB1 HB2].
    rewrite HB1 in Hs. cbn [use mbind outcome_bind] in Hs. rewrite Nat.eqb_refl in Hs. injection Hs as <-. done.
  Qed.

  Definition unset (b : bblock) : bblock := BBlock (Some 0) None (bb_ptr b).
  Definition bcsr_map (s : bcsr_st (T := T)) : rbcsr_st (T := T) := let '(g, bs, ci, v) := s in (geo3 <$> g, unset <$> bs, ci, v).
  Lemma lset_unset bs i b bs' c : lset bs i b = Ok bs' -> c = unset b -> lset (unset <$> bs) i c = Ok (unset <$> bs').
  Proof.
    intros Hs ->. unfold lset in *. rewrite fmap_length. destruct (decide (i < length bs)); [|done]. injection Hs as <-. by rewrite list_fmap_insert.
  Qed.
  Lemma bcsr_new_sim (roff coff : arr nat) nbc i id s t : bcsr_new roff coff nbc i id s = Ok t -> forall kk, rbcsr_new roff coff nbc kk i id (bcsr_map s) = Ok (bcsr_map t).
  Proof.
    destruct s as [[[g bs] ci] v]. unfold bcsr_new, rbcsr_new. cbn [bcsr_map]. intros Hn kk.
    apply bsplit in Hn as ([[br bc] g'] & Hg & Hn). rewrite (read_geometry_of _ _ _ _ _ _ _ Hg). cbn [mbind outcome_bind geo3].
    apply bsplit in Hn as (bs' & Hset & Hn). injection Hn as <-.
    assert (Hlt : id < length bs) by (unfold lset in Hset; by destruct (decide (id < length bs))).
    destruct (lookup_lt_is_Some_2 bs id Hlt) as [b Hb].
    rewrite (lget_some (unset <$> bs) id (unset b)) by (by rewrite list_lookup_fmap, Hb). cbn [mbind outcome_bind].
    erewrite lset_unset; [reflexivity|exact Hset|done].
  Qed.
  Lemma bcsr_add_sim i e s t : bcsr_add i e s = Ok t -> forall kk, rbcsr_add kk i e (bcsr_map s) = Ok (bcsr_map t).
  Proof.
    destruct s as [[[[g|] bs] ci] v]; [|done]. unfold bcsr_add, rbcsr_add. cbn [bcsr_map fmap option_fmap option_map use]. cbn [mbind outcome_bind].
    intros Hn kk. apply bsplit in Hn as (u & Hg & Hn). rewrite (check_read_of _ _ _ Hg). cbn [mbind outcome_bind geo3].
    do 6 inv_ok Hn. injection Hn as <-.
    assert (Hb : bs !! blk e = Some a) by (unfold lget in Ha; destruct (bs !! blk e); [by injection Ha as ->|done]).
    rewrite (lget_some (unset <$> bs) (blk e) (unset a)) by (by rewrite list_lookup_fmap, Hb). cbn [mbind outcome_bind unset bb_ptr].
    rewrite Ha0. cbn [mbind outcome_bind]. rewrite Ha1. cbn [mbind outcome_bind].
    erewrite lset_unset; [|exact Ha2|done]. cbn [mbind outcome_bind]. rewrite Ha3. cbn [mbind outcome_bind]. rewrite Ha4. done.
  Qed.

  (** files written by the tools are read with success: columns and values are those of the
      constructor, but the row pointers hold the number of elements per row, not sums *)
  Theorem C76_reads_files B roff nbr coff nbc :
    index_bytes k -> storable RT -> itW = S umax -> blockable B roff nbr coff nbc -> nbr * nbc < itW ->
    exists file A (E' : list (elem T)), make_block_file RT k B (full roff) nbr (full coff) nbc = Ok file /\ same_elements (c_elems B) E' /\
      read_bin_blocked_bcsr RT k umax (Some file) (full roff) nbr (full coff) nbc = Ok (0%Z, Some A) /\
      forall i e, E' !! i = Some e ->
        exists br bc b rp, br < nbr /\ bc < nbc /\ in_block roff br (row e) /\ in_block coff bc (col e) /\
          bs_blocks A !! (br * nbc + bc) = Some b /\ bb_ptr b = Some rp /\
          aget rp (row e - nth br roff 0 + 1) =
            Ok (length (bfilter (fun c => (row c =? row e) && (nth bc coff 0 <=? col c) && (col c <? nth (bc + 1) coff 0)) (c_elems B))) /\
          aget (bs_colind _ A) i = Ok (col e - nth bc coff 0) /\ aget (bs_val _ A) i = Ok (val e).
  Proof.
    intros Hk HR Hu HB Hfew. pose proof (make_file RT k B roff nbr coff nbc HB) as Hfile.
    pose proof (sorted_record_fits B roff nbr coff nbc HB) as Hfit. pose proof (blockable_small B roff nbr coff nbc HB) as (N1 & N2 & N3 & N4 & N5).
    destruct B as [rows cols E]. pose proof HB as (Hne & HE & Hr & Hc & H1 & H2 & H3 & H4 & H5 & H6). unfold c_nnz in *. cbn [c_rows c_cols c_elems] in *.
    set (E' := bsorted roff nbr coff nbc E) in *. set (I := bids roff nbr coff nbc E) in *.
    set (base := fun _ : nat => BBlock None None None).
    assert (Hlen : length E' = length E) by apply bsorted_length.
    pose proof (bcsr_scan roff nbr rows coff nbc cols E Hr Hc HE Hne Hfew H4 H5 H6 base) as Hscan.
    apply wp_exists in Hscan as (st & Hst & ->). fold E' in Hst.
    destruct (read_sim RT k umax Hk HR bcsr_map _ _ (rbcsr_new (full roff) (full coff) nbc) rbcsr_add E' _ _ [] Hu (bsorted_ksorted _ _ _ _ _) Hfit
      (fun kk i id s t Hs => bcsr_new_sim _ _ _ _ _ _ _ Hs kk) (fun kk i e s t Hs => bcsr_add_sim _ _ _ _ Hs kk) Hst) as (kk & prev & Hread).
    rewrite app_nil_r in Hread.
    assert (Hgr : aget (full roff) nbr = Ok rows) by (rewrite (blocking_get roff nbr rows nbr Hr) by lia; destruct Hr as (_ & _ & -> & _); done).
    assert (Hgc : aget (full coff) nbc = Ok cols) by (rewrite (blocking_get coff nbc cols nbc Hc) by lia; destruct Hc as (_ & _ & -> & _); done).
    assert (Hwm : wmul nbr nbc = nbr * nbc) by (unfold wmul; apply wrap_small; lia).
    exists (write_bin_blocked RT k (Coo rows cols E') nbr nbc (length I)).
    exists (Bcsr rows cols (length E) nbr nbc (length I) (full roff) (full coff) (unset <$> (bb_state roff nbr coff nbc E base E' <$> seq 0 (nbr * nbc)))
      (full ((fun e => col (BlocksProof.loc roff coff nbc e)) <$> E')) (full (val <$> E'))), E'.
    split; [exact Hfile|]. split; [unfold same_elements; symmetry; apply bsorted_coords|]. split.
    { unfold read_bin_blocked_bcsr. rewrite (read_common RT k Hk rows cols E') by (try done; try lia).
      cbn [mbind outcome_bind]. cbv zeta. rewrite Hwm.
      match goal with |- context [for_range 0 (nbr * nbc) ?f (replicate (nbr * nbc) ?a)] =>
        assert (Hini : for_range 0 (nbr * nbc) f (replicate (nbr * nbc) a) = Ok (unset <$> (base <$> seq 0 (nbr * nbc)))) end.
      { apply wp_eq. eapply wp_mono; [apply (wp_for_range (fun i bs =>
          bs = (fun id => if decide (id < i) then BBlock (Some 0) None None else BBlock None None None) <$> seq 0 (nbr * nbc)))|].
        - lia.
        - apply list_eq. intros j. rewrite list_lookup_fmap. destruct (decide (j < nbr * nbc)).
          + rewrite lookup_replicate_2, lookup_seq_lt by done. cbn. done.
          + rewrite lookup_seq_ge by lia. apply lookup_replicate_None. lia.
        - intros i bs Hi ->. rewrite lget_table by lia. cbn [mbind outcome_bind]. cbv beta. rewrite decide_False by lia.
          erewrite lset_table; [reflexivity|lia| |].
          + cbv beta. by rewrite decide_True by lia.
          + intros j Hj Hji. cbv beta. destruct (decide (j < i)); [rewrite decide_True by lia|rewrite decide_False by lia]; done.
        - intros bs ->. rewrite <- list_fmap_compose. apply list_fmap_ext. intros i id Hid.
          apply elem_of_list_lookup_2, elem_of_seq in Hid. by rewrite decide_True by lia. }
      rewrite Hini. clear Hini. cbn [mbind outcome_bind].
      rewrite Hlen in Hread |- *. cbn [bcsr_map fmap option_fmap option_map] in Hread.
      match type of Hread with ?a = _ => match goal with |- context [read_records ?x1 ?x2 ?x3 ?x4 ?x5 ?x6 ?x7 ?x8] => change (read_records x1 x2 x3 x4 x5 x6 x7 x8) with a end end.
      rewrite Hread. clear Hread. cbn [mbind outcome_bind].
      match goal with |- context [for_range 0 (length I) ?f ?l] => assert (Hfin : for_range 0 (length I) f l = Ok l) end.
      { apply wp_eq. eapply wp_mono; [apply (wp_for_range (fun _ bs => bs = unset <$> (bb_state roff nbr coff nbc E base E' <$> seq 0 (nbr * nbc))))|].
        - lia.
        - done.
        - intros i bs Hi ->. destruct (lookup_lt_is_Some_2 (seq 0 (nbr * nbc)) i) as [j Hj]; [rewrite seq_length; lia|].
          rewrite (lget_some _ i (unset (bb_state roff nbr coff nbc E base E' j))) by (by rewrite !list_lookup_fmap, Hj).
          cbn [mbind outcome_bind unset bb_rows use]. rewrite Nat.eqb_refl. done.
        - by intros bs ->. }
      rewrite Hfin. cbn [mbind outcome_bind].
      rewrite !(part_full_len _ (length E)) by (by rewrite fmap_length). done. }
    intros i e He. assert (HeE : e ∈ E') by (by eapply elem_of_list_lookup_2).
    destruct (bsorted_inside roff nbr rows coff nbc cols E Hr Hc HE e HeE) as (B1 & B2 & B3 & B4).
    destruct (loc_inside roff nbr rows coff nbc cols E Hr Hc HE e HeE) as [L1 L2].
    destruct (bids_range _ _ _ _ _ _ _ Hr Hc HE _ (blk_in_bids roff nbr coff nbc E e HeE)) as (Hid & _).
    assert (Hdm : blk e / nbc * nbc + blk e mod nbc = blk e).
    { symmetry. rewrite (Nat.mul_comm _ nbc). apply Nat.div_mod. lia. }
    eexists (blk e / nbc), (blk e mod nbc), _, _. rewrite Hdm.
    split; [done|]. split; [done|]. split; [done|]. split; [done|].
    split; [cbn [bs_blocks]; rewrite !list_lookup_fmap, lookup_seq_lt by done; reflexivity|].
    split. { cbn [fmap option_fmap option_map unset bb_ptr]. unfold bb_state. rewrite decide_True by (apply elem_of_list_fmap; eauto). reflexivity. }
    split; [|split; cbn [bs_colind bs_val]; rewrite aget_full; apply lget_some; by rewrite list_lookup_fmap, He].
    assert (Hrow : row (BlocksProof.loc roff coff nbc e) = row e - nth (blk e / nbc) roff 0) by done.
    rewrite <- Hrow, aget_full. apply lget_some. change (0 + blk e) with (blk e). unfold counters. rewrite fmap_seq_lookup by (unfold ro in *; lia). rewrite !Nat.add_1_r. f_equal.
    rewrite cnteq_fmap. set (P := fun c : elem T => (row c =? row e) && (nth (blk e mod nbc) coff 0 <=? col c) && (col c <? nth (S (blk e mod nbc)) coff 0)).
    transitivity (length (bfilter P E')).
    - f_equal. unfold group.
      assert (Hff : forall (f g : elem T -> bool) l, bfilter f (bfilter g l) = bfilter (fun c => g c && f c) l).
      { intros f g l. induction l as [|c l IH]; [done|]. cbn. destruct (g c); cbn; [|done]. destruct (f c); by rewrite IH. }
      rewrite Hff. apply filter_ext_in. intros c Hce%elem_of_list_In.
      destruct (bsorted_inside roff nbr rows coff nbc cols E Hr Hc HE c Hce) as (D1 & D2 & D3 & D4).
      assert (Hdc : blk c / nbc * nbc + blk c mod nbc = blk c).
      { symmetry. rewrite (Nat.mul_comm _ nbc). apply Nat.div_mod. lia. }
      apply eq_true_iff_eq. unfold has, P, in_block in *. rewrite !andb_true_iff, !Nat.eqb_eq, Nat.leb_le, Nat.ltb_lt.
      assert (Hrc : row (BlocksProof.loc roff coff nbc c) = row c - nth (blk c / nbc) roff 0) by done. rewrite Hrc, Hrow.
      split.
      + intros [Heq Hrr]. rewrite Heq in *. lia.
      + intros [[Hrr Hc1] Hc2].
        assert (blk c / nbc = blk e / nbc) as Hq1 by (eapply (in_block_unique roff nbr rows _ _ (row e) Hr); unfold in_block; try done; by rewrite <- Hrr).
        assert (blk c mod nbc = blk e mod nbc) as Hq2 by (by eapply (in_block_unique coff nbc cols _ _ (col c) Hc)).
        rewrite Hq1, Hq2 in Hdc. rewrite Hq1. split; [congruence|lia].
    - rewrite (Permutation_length (bfilter_perm P E' _ (bsorted_perm roff nbr coff nbc E))). unfold with_ids. 
      assert (HP : forall n c, P (set_blk n c) = P c) by done. clear -HP. induction E as [|c l IH]; [done|].
      cbn [fmap list_fmap List.filter]. rewrite HP. destruct (P c); cbn [length]; by rewrite IH.
  Qed.
End C76.

(** ** the hypotheses are met *)
Definition ex_full : coo Z := Coo 4 5 [Elem 3 0 5%Z 0; Elem 0 4 2%Z 0; Elem 1 1 1%Z 0; Elem 3 4 7%Z 0; Elem 0 2 3%Z 0; Elem 2 3 3%Z 0].
Example C32_construction_ex : let W := {| itW := 100; sitW := 10 |} in
  blockable ex_full [0; 2; 4] 2 [0; 3; 5] 2 /\
  (forall id, id < 2 * 2 -> exists e, e ∈ c_elems ex_full /\ block_id [0; 2; 4] 2 [0; 3; 5] 2 e = id) /\
  exists A B', Coo_to_Bcsr (Some 2) ex_full (full [0; 2; 4]) 2 (full [0; 3; 5]) 2 = Ok (A, B') /\
    bs_blocks A = [BBlock (Some 2) (Some 0) (Some (full [0; 1; 2])); BBlock (Some 2) (Some 2) (Some (full [0; 1; 1]));
                   BBlock (Some 2) (Some 3) (Some (full [0; 0; 1])); BBlock (Some 2) (Some 4) (Some (full [0; 1; 2]))].
Proof.
  cbv zeta. split; [|split].
  - apply blockable_few. split; [done|]. split; [repeat constructor; cbn; lia|].
    split; [split; [done|]; split; [done|]; split; [done|]; intros b Hb; do 2 (destruct b as [|b]; [cbn; lia|]); lia|].
    split; [split; [done|]; split; [done|]; split; [done|]; intros b Hb; do 2 (destruct b as [|b]; [cbn; lia|]); lia|].
    cbn. lia.
  - intros id Hid. destruct id as [|[|[|[|id]]]]; [exists (Elem 1 1 1%Z 0)|exists (Elem 0 4 2%Z 0)|exists (Elem 3 0 5%Z 0)|exists (Elem 3 4 7%Z 0)|lia];
      (split; [cbn [c_elems ex_full]; set_solver|vm_compute; reflexivity]).
  - eexists _, _. split; [vm_compute; reflexivity|done].
Qed.
Example C24_overflow_ex : let W := {| itW := 100; sitW := 10 |} in itW = 2 * 50 /\ Coo_to_Dense [Elem 0 2 7%Z 0] 2 51 = Undef OutOfBounds.
Proof. done. Qed.
Example C75_ex : @Coo2_to_Csbr_sort Z {| itW := 100; sitW := 10 |} ex_full (full [0; 2; 4]) 2 (full [0; 3; 5]) 2 = Undef OutOfBounds.
Proof. apply C75_coo2_csbr_refuted. exact (proj1 C32_construction_ex). Qed.
(** the file of [C56_ex] (Properties_BlockIo.v), whose hypotheses are those of [C76_reads_files]:
    four blocks, all with no rows and with counts per row where row pointers should be *)
Example C76_ex : exists A, @read_bin_blocked_bcsr Z ex_W16 ex_RZ 1 255
    (Some [4; 5; 5; 2; 2; 3;  0; 0; 2; 2; 0;  0; 0; 2; 3; 0;  0; 1; 1; 1; 0;  2; 3; 0; 5; 0;  3; 3; 4; 7; 0]) (full [0; 2; 4]) 2 (full [0; 3; 5]) 2 = Ok (0%Z, Some A) /\
  bs_blocks A = [BBlock (Some 0) None (Some (full [0; 2; 1])); BBlock (Some 0) None None;
                 BBlock (Some 0) None (Some (full [0; 0; 1])); BBlock (Some 0) None (Some (full [0; 0; 1]))].
Proof. eexists. split; [vm_compute; reflexivity|done]. Qed.
