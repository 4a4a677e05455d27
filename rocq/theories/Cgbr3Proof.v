(** Cgbr3Proof.v: the constructors and kernels of Cgbr and Cgbr2 (Cgbr.v) *)
From Verif Require Export Cgbr2Proof.
From Coq Require Import ZifyNat ZifyBool.

Lemma fold_left_only {A} (f : nat -> A -> A) i0 lo n (y : A) : lo <= i0 < lo + n ->
  (forall i y, lo <= i < lo + n -> i <> i0 -> f i y = y) ->
  fold_left (fun y i => f i y) (seq lo n) y = f i0 y.
Proof.
  revert lo y. induction n as [|n IH]; intros lo y Hi Hf; [lia|]. cbn [seq fold_left].
  destruct (decide (lo = i0)) as [->|Hne].
  - assert (Hid : forall m k z, i0 < k -> k + m <= S (i0 + n) -> fold_left (fun y i => f i y) (seq k m) z = z).
    { induction m as [|m IHm]; intros k z Hk Hm; [done|]. cbn [seq fold_left]. rewrite Hf by lia. apply IHm; lia. }
    apply Hid; lia.
  - rewrite Hf by lia. apply IH; [lia|]. intros i z Hi' Hn. apply Hf; [lia|done].
Qed.

(** a sequential loop over the block rows *)
Section rows.
  Context {T : Type} `{Scalar T}.
  Lemma performs_block_rows roff nbr rows (body : nat -> prog T unit) (b : buf) (g : nat -> T -> T) : blocking roff nbr rows ->
    (forall bi, bi < nbr -> performs (body bi) b (0 + nth bi roff 0) (nth (S bi) roff 0 - nth bi roff 0) (fun _ => False) (fun r => g (nth bi roff 0 + r))) ->
    performs (pfor nbr 0 body) b 0 rows (fun _ => False) g.
  Proof.
    intros Hr Hb.
    eapply performs_ext; [|apply (performs_pfor body nbr 0 b 0 rows (fun _ => False)
      (fun bi k y => if decide (nth bi roff 0 <= k < nth bi roff 0 + (nth (S bi) roff 0 - nth bi roff 0)) then g (nth bi roff 0 + (k - nth bi roff 0)) y else y))].
    - intros k y Hk. destruct (block_of_spec _ _ _ _ Hr Hk) as [H1 [H2 H3]].
      rewrite (fold_left_only (fun bi y => if decide (nth bi roff 0 <= k < nth bi roff 0 + (nth (S bi) roff 0 - nth bi roff 0)) then g (nth bi roff 0 + (k - nth bi roff 0)) y else y) (block_of roff nbr k)); [|lia|].
      + rewrite decide_True by lia. f_equal. lia.
      + intros i z Hi Hne. rewrite decide_False; [done|]. intros Hin. apply Hne. symmetry. eapply block_of_unique; [exact Hr|lia|]. unfold in_block. lia.
    - intros bi Hbi. apply (performs_sub (body bi) b 0 rows (nth bi roff 0) (nth (S bi) roff 0 - nth bi roff 0) (fun _ => False) (fun r => g (nth bi roff 0 + r))).
      + pose proof (blocking_le _ _ _ (S bi) Hr ltac:(lia)). pose proof (blocking_mono _ _ _ bi (S bi) Hr ltac:(lia) ltac:(lia)). lia.
      + apply Hb. lia.
  Qed.
End rows.

Section ctor.
  Context {T : Type} `{Scalar T} `{Widths}.
  Context (roff : list nat) (nbr rows : nat) (coff : list nat) (nbc cols : nat) (E : list (elem T)).
  Context (Hr : blocking roff nbr rows) (Hc : blocking coff nbc cols) (HE : in_range rows cols E).
  Context (Hne : E <> []) (Hnr : nbr <= rows) (Hnc : nbc <= cols) (Hids : numbered roff nbr coff nbc E).
  Context (Hrows : rows + 1 < itW) (Hcols : cols < itW) (Hnnz : length E < itW).
  Context (make : factory (T := T)) (tag : mblock T -> nat) (dense : nat -> Prop).
  Notation I := (bids roff nbr coff nbc E).
  Notation local := (local roff nbr coff nbc E).
  Notation at_block := (blocks_at roff nbr coff nbc E).
  Notation made_block := (made_block roff nbr coff nbc E make).
  Notation made_type := (made_type roff nbr coff nbc E make).
  Notation made_left := (made_left roff nbr coff nbc E make).
  Notation matrix := (cgbr_matrix roff nbr rows coff nbc cols E make).
  Notation brs := (brs roff nbr coff nbc E).
  Definition is_dense (M : mblock T) : Prop := match M with MDense _ => True | _ => False end.
  Context (Hmk : forall id, id ∈ I -> exists B ty L, makes make tag (local id) (rsz roff nbc id) (csz coff nbc id) B ty L /\ (~ dense id -> ~ is_dense (gb_mat B))).

  Lemma made_makes id : id ∈ I ->
    makes make tag (local id) (rsz roff nbc id) (csz coff nbc id) (made_block id) (made_type id) (made_left id) /\
    (~ dense id -> ~ is_dense (gb_mat (made_block id))).
  Proof.
    intros Hid. destruct (Hmk id Hid) as (B & ty & L & HM & HD). pose proof (mk_ok _ _ _ _ _ _ _ _ HM) as Hok.
    unfold CgbrProof.made_block, CgbrProof.made_type, CgbrProof.made_left, made. rewrite Hok. done.
  Qed.
  Lemma Hmake id : id ∈ I -> exists B ty L, make (local id) (rsz roff nbc id) (csz coff nbc id) = Ok (B, ty, L) /\
     length L = length (local id) /\ ty < MATRIX_TYPE_NUM.
  Proof.
    intros Hid. destruct (Hmk id Hid) as (B & ty & L & HM & _). exists B, ty, L. split; [by apply HM|]. split; [|by apply HM].
    by rewrite (mk_same _ _ _ _ _ _ _ _ HM).
  Qed.
  Lemma matrix_block k id : I !! k = Some id -> aget (cg_blocks matrix) k = Ok (made_block id).
  Proof. intros Hk. unfold cgbr_matrix. cbn [cg_blocks]. rewrite aget_full. apply lget_some. by rewrite list_lookup_fmap, Hk. Qed.
  Definition load_of (k : nat) : nat :=
    let id := nth k I 0 in mblock_load (gb_mat (made_block id)) (gb_nnz (made_block id)) (rsz roff nbc id) (csz coff nbc id).
  Lemma load_spec k id : I !! k = Some id -> cgbr1_nonzeros (made_block id) = Ok (load_of k).
  Proof.
    intros Hk. unfold cgbr1_nonzeros, load_of. rewrite (nth_lookup_Some I k 0 id Hk). cbv zeta.
    pose proof (proj1 (made_makes id (elem_of_list_lookup_2 _ _ _ Hk))) as HM. rewrite (mk_nnz _ _ _ _ _ _ _ _ HM). apply (mk_nz _ _ _ _ _ _ _ _ HM).
  Qed.
  Lemma nonzeros1 k : k < length I -> exists n, bk_nonzeros (cgbr_view cgbr1_nonzeros matrix) k = Ok n.
  Proof.
    intros [id Hk]%lookup_lt_is_Some. unfold cgbr_view. cbn [bk_nonzeros]. rewrite (matrix_block k id Hk). cbn [mbind outcome_bind].
    eexists. by apply load_spec.
  Qed.
  Lemma nonzeros2 k : k < length I -> exists n, bk_nonzeros (cgbr_view cgbr2_nonzeros matrix) k = Ok n.
  Proof.
    intros [id Hk]%lookup_lt_is_Some. unfold cgbr_view. cbn [bk_nonzeros]. rewrite (matrix_block k id Hk). by eexists.
  Qed.
  Definition row_loads (bi : nat) : list nat := load_of <$> seq (cntlt brs bi) (cntlt brs (S bi) - cntlt brs bi).
  Lemma is_balanced_ok bal : is_balanced bal matrix = Ok (bal (length E) nbr (row_loads <$> seq 0 nbr)).
  Proof.
    unfold is_balanced.
    match goal with |- context [for_range 0 ?n ?st ?i] => assert (Hw : for_range 0 n st i = Ok (row_loads <$> seq 0 nbr)) end.
    { apply wp_eq. eapply wp_mono; [apply (wp_for_range (fun i r => r = row_loads <$> seq 0 i)); [lia|done|]|by intros r ->].
      intros bi counts Hbi ->.
      unfold cgbr_matrix in Hbi |- *. cbn [cg_ptr cg_blockrows] in Hbi |- *. rewrite !ptrs_get by lia. cbn [mbind outcome_bind].
      replace (bi + 1) with (S bi) by lia. pose proof (cntlt_mono brs bi (S bi) ltac:(lia)). pose proof (cntlt_le brs (S bi)) as Hle.
      assert (Hbl : length brs = length I) by (unfold BlocksProof.brs; apply fmap_length).
      match goal with |- context [for_range ?lo ?hi ?st ?i] => assert (Hw : for_range lo hi st i = Ok (row_loads bi)) end.
      { apply wp_eq. eapply wp_mono; [apply (wp_for_range (fun k r => r = load_of <$> seq (cntlt brs bi) (k - cntlt brs bi))); [lia| |]|by intros r ->].
        - by rewrite Nat.sub_diag.
        - intros k l Hk ->. cbn [cg_ind]. rewrite aget_full.
          destruct (lookup_lt_is_Some_2 I k) as [id Hid]; [lia|]. rewrite (lget_some _ _ (id mod nbc)) by (by rewrite list_lookup_fmap, Hid).
          cbn [mbind outcome_bind]. pose proof (matrix_block k id Hid) as Hb. unfold cgbr_matrix in Hb. rewrite Hb. cbn [mbind outcome_bind].
          rewrite (load_spec k id Hid). cbn [mbind outcome_bind wp].
          replace (S k - cntlt brs bi) with (S (k - cntlt brs bi)) by lia. rewrite seq_S, fmap_app. cbn. by replace (cntlt brs bi + (k - cntlt brs bi)) with k by lia. }
      rewrite Hw. cbn [mbind outcome_bind wp]. by rewrite seq_S, fmap_app. }
    rewrite Hw. done.
  Qed.
  Lemma cgbr_parts nz workers : 0 < workers -> 2 * workers < itW -> 2 * (length E + 2) < itW ->
    (forall k, k < length I -> exists n, bk_nonzeros (cgbr_view nz matrix) k = Ok n) ->
    exists parts, partition_init (cgbr_view nz matrix) workers = Ok parts /\ good_partition nbr brs parts.
  Proof.
    intros W1 W2 W3 Hnz. eapply (partition_init_tiles _ nbr brs); [done|done|by apply min_nnz_ok| |].
    - intros k Hk. apply Hnz. unfold BlocksProof.brs in Hk. by rewrite fmap_length in Hk.
    - unfold BlocksProof.brs. rewrite fmap_length. pose proof (bids_length roff nbr coff nbc E). lia.
  Qed.

  Lemma Coo_to_Cgbr2_spec workers : 0 < workers -> 2 * workers < itW -> 2 * (length E + 2) < itW ->
    exists parts, Coo_to_Cgbr2 make workers (Coo rows cols E) (full roff) nbr (full coff) nbc =
        Ok (matrix, parts, Coo rows cols (cgbr_source roff nbr coff nbc E make)) /\
      good_partition nbr brs parts.
  Proof.
    intros W1 W2 W3.
    assert (Hpos : 0 < nbr /\ 0 < nbc).
    { destruct E as [|e0 l0]; [done|]. apply Forall_inv in HE. destruct HE as [He1 He2].
      pose proof (block_of_spec _ _ _ _ Hr He1) as [? _]. pose proof (block_of_spec _ _ _ _ Hc He2) as [? _]. lia. }
    destruct (cgbr_parts cgbr2_nonzeros workers W1 W2 W3 nonzeros2) as (parts & Hparts & Hg). exists parts. split; [|done].
    unfold Coo_to_Cgbr2. cbn [c_elems c_rows c_cols].
    rewrite (check_blocking_ok roff nbr rows coff nbc cols Hr Hc Hnr Hnc). cbn [mbind outcome_bind].
    rewrite (calculate_block_id_numbered E roff nbr coff nbc rows cols) by (done || lia || apply Hids). cbn [mbind outcome_bind].
    rewrite sort_elements_blocks_spec. cbn [mbind outcome_bind]. fold (bsorted roff nbr coff nbc E).
    rewrite count_bids by done. cbn [mbind outcome_bind].
    rewrite (cgbr_fill_spec roff nbr rows coff nbc cols E Hr Hc HE Hne Hnr Hnc Hids Hrows Hcols Hnnz make Hmake). cbn [mbind outcome_bind].
    rewrite Hparts. done.
  Qed.

  Lemma Coo_to_Cgbr_spec choose bal workers : make = make_block choose -> 0 < workers -> 2 * workers < itW -> 2 * (length E + 2) < itW ->
    exists parts, let balanced := bal (length E) nbr (row_loads <$> seq 0 nbr) in
      Coo_to_Cgbr choose bal workers (Coo rows cols E) (full roff) nbr (full coff) nbc =
        Ok (matrix, balanced, parts, Coo rows cols (cgbr_source roff nbr coff nbc E make)) /\
      (balanced = false -> good_partition nbr brs parts).
  Proof.
    intros Hch W1 W2 W3.
    assert (Hpos : 0 < nbr /\ 0 < nbc).
    { destruct E as [|e0 l0]; [done|]. apply Forall_inv in HE. destruct HE as [He1 He2].
      pose proof (block_of_spec _ _ _ _ Hr He1) as [? _]. pose proof (block_of_spec _ _ _ _ Hc He2) as [? _]. lia. }
    pose proof (is_balanced_ok bal) as Hv. set (v := bal (length E) nbr (row_loads <$> seq 0 nbr)) in *.
    destruct (cgbr_parts cgbr1_nonzeros workers W1 W2 W3 nonzeros1) as (parts & Hparts & Hg).
    exists (if v then [] else parts). cbv zeta. split; [|by intros ->].
    unfold Coo_to_Cgbr. cbn [c_elems c_rows c_cols].
    rewrite (calculate_block_id_numbered E roff nbr coff nbc rows cols) by (done || lia || apply Hids). cbn [mbind outcome_bind].
    rewrite sort_elements_blocks_spec. cbn [mbind outcome_bind]. fold (bsorted roff nbr coff nbc E).
    rewrite count_bids by done. cbn [mbind outcome_bind].
    rewrite (check_blocking_ok roff nbr rows coff nbc cols Hr Hc Hnr Hnc). cbn [mbind outcome_bind]. rewrite <- Hch.
    rewrite (cgbr_fill_spec roff nbr rows coff nbc cols E Hr Hc HE Hne Hnr Hnc Hids Hrows Hcols Hnnz make Hmake). cbn [mbind outcome_bind].
    rewrite Hv. cbn [mbind outcome_bind]. destruct v; [done|]. rewrite Hparts. done.
  Qed.

  (** the values the kernels compute *)
  Definition block_val (x : list T) (id i : nat) (y : T) : T :=
    mblock_value (gb_mat (made_block id)) (made_left id) (csz coff nbc id) (drop (co coff nbc id) x) (i - ro roff nbc id) y.
  Definition row_val (x : list T) (i : nat) (y : T) : T :=
    fold_left (fun y k => block_val x (nth k I 0) i y) (row_blocks roff nbr brs i) y.
  Lemma matrix_block_does nz x k id : cols <= length x -> I !! k = Some id ->
    block_does (cgbr_view nz matrix) x k (rsz roff nbc id) (fun r => block_val x id (ro roff nbc id + r)).
  Proof.
    intros Hx Hk b o.
    eapply performs_ext; [|eapply (cgbr_block_does roff nbr rows coff nbc cols E Hr Hc HE Hnr Hnc Hrows Hcols Hnnz make x Hx nz
       (fun id x' r => mblock_value (gb_mat (made_block id)) (made_left id) (csz coff nbc id) x' r) _ k id Hk)].
    - intros r y Hrr. cbv beta. unfold block_val. f_equal. lia.
    Unshelve. intros id' Hid' xo b' o' Hxo. by apply (mk_spmv _ _ _ _ _ _ _ _ (proj1 (made_makes id' Hid'))).
  Qed.

  Lemma matrix_G nz x : cols <= length x -> forall k bi, brs !! k = Some bi ->
    block_does (cgbr_view nz matrix) x k (nth (S bi) roff 0 - nth bi roff 0) (fun r => block_val x (nth k I 0) (nth bi roff 0 + r)).
  Proof.
    intros Hx k bi. unfold BlocksProof.brs. rewrite list_lookup_fmap. destruct (I !! k) as [id|] eqn:Hid; [|done]. intros [= <-].
    rewrite (nth_lookup_Some I k 0 id Hid). by apply matrix_block_does.
  Qed.
  Lemma matrix_roff bi : bi <= nbr -> aget (cg_roff matrix) bi = Ok (nth bi roff 0).
  Proof. intros Hbi. by apply (blocking_get _ _ _ _ Hr). Qed.
  Lemma matrix_balanced nz parts x (b : buf) (y : list T) : cols <= length x -> length y = rows ->
    all_schedules (spmv_blocked (cgbr_view nz matrix) parts true x b) (heap_of b y) tt (heap_of b (imap (row_val x) y)).
  Proof.
    intros Hx Hy.
    pose proof (performs_spmv_balanced (cgbr_view nz matrix) x roff nbr rows brs (fun k => block_val x (nth k I 0))
      Hr eq_refl eq_refl matrix_roff (brs_sorted _ _ _ _ _) ltac:(lia) (matrix_G nz x Hx) b) as Hp.
    rewrite <- Hy in Hp. apply (performs_vector _ b y _ _ Hp). by intros [].
  Qed.
  Definition chunked_val (x : list T) (parts : list (list nat)) (i : nat) (y : T) : T :=
    let chunks := row_chunks roff nbr parts i in
    chunk_val (length chunks) (fun k => block_val x (nth k I 0) i) chunks 0 (length chunks - 1) y.
  Lemma matrix_unbalanced nz parts x (b : buf) (y : list T) : cols <= length x -> length y = rows -> good_partition nbr brs parts ->
    all_schedules (spmv_blocked (cgbr_view nz matrix) parts false x b) (heap_of b y) tt (heap_of b (imap (chunked_val x parts) y)).
  Proof.
    intros Hx Hy Hg.
    pose proof (performs_spmv_unbalanced (cgbr_view nz matrix) x roff nbr rows brs (fun k => block_val x (nth k I 0))
      Hr eq_refl matrix_roff (brs_sorted _ _ _ _ _) ltac:(lia) (matrix_G nz x Hx) parts b Hg) as Hp.
    rewrite <- Hy in Hp. apply (performs_vector _ b y _ _ Hp). intros (i & _ & Hi). by apply temp_name_self in Hi.
  Qed.
  (** the serial kernel computes what the balanced one does *)
  Lemma matrix_serial x (b : buf) (y : list T) : cols <= length x -> length y = rows ->
    all_schedules (cgbr_spmv_serial matrix x b) (heap_of b y) tt (heap_of b (imap (row_val x) y)).
  Proof.
    intros Hx Hy.
    assert (Hp : performs (cgbr_spmv_serial matrix x b) b 0 rows (fun _ => False) (row_val x)).
    { unfold cgbr_spmv_serial. change (cg_blockrows matrix) with nbr. apply (performs_block_rows roff nbr rows); [done|].
      intros bi Hbi. change (cg_ptr matrix) with (full (ptrs brs nbr)).
      eapply performs_lift; [apply ptrs_get; lia|]. eapply performs_lift; [apply ptrs_get; lia|].
      eapply performs_lift; [apply matrix_roff; lia|]. replace (bi + 1) with (S bi) by lia.
      unfold pfor_range.
      eapply performs_ext; [|apply (performs_pfor _ _ _ b (0 + nth bi roff 0) (nth (S bi) roff 0 - nth bi roff 0) (fun _ => False)
        (fun k r => block_val x (nth k I 0) (nth bi roff 0 + r)))].
      - intros r z Hrr. cbv beta. unfold row_val, row_blocks.
        rewrite (block_of_unique roff nbr rows _ bi Hr Hbi) by (unfold in_block; lia). cbv zeta. rewrite cntlt_S.
        by replace (cntlt brs bi + cnteq brs bi - cntlt brs bi) with (cnteq brs bi) by lia.
      - intros k Hk. pose proof (brs_between brs (brs_sorted roff nbr coff nbc E) bi k ltac:(lia)) as Hkb.
        unfold BlocksProof.brs in Hkb. rewrite list_lookup_fmap in Hkb. destruct (I !! k) as [id|] eqn:Hid; [|done]. injection Hkb as Hkb.
        assert (HidI : id ∈ I) by (by eapply elem_of_list_lookup_2).
        destruct (bids_range _ _ _ _ _ _ _ Hr Hc HE id HidI) as (_ & H1 & H2 & _).
        destruct (geometry_range _ _ _ _ _ _ _ Hr Hc HE id HidI) as (G1 & G2 & _).
        unfold cgbr_matrix. cbn [cg_ind cg_coff cg_blocks].
        eapply performs_lift; [rewrite aget_full; apply lget_some; rewrite list_lookup_fmap, Hid; reflexivity|].
        eapply performs_lift; [apply (blocking_get _ _ _ _ Hc); lia|]. fold (co coff nbc id).
        eapply performs_lift; [rewrite aget_full; apply lget_some; rewrite list_lookup_fmap, Hid; reflexivity|].
        rewrite (nth_lookup_Some I k 0 id Hid). rewrite <- Hkb.
        eapply performs_ext; [|apply (mk_spmv_serial _ _ _ _ _ _ _ _ (proj1 (made_makes id HidI))); lia].
        intros r z Hrr. cbv beta. unfold block_val. f_equal. unfold ro. lia. }
    rewrite <- Hy in Hp. apply (performs_vector _ b y _ _ Hp). by intros [].
  Qed.

  (** with exact arithmetic *)
  Context (one : T) (SR : exact_arith T one).
  Context (Hdist : forall id, id ∈ I -> dense id -> distinct_coords (local id)).
  Context (Hdec : forall id, dense id \/ ~ dense id).
  Lemma block_val_exact x id i y : id ∈ I -> ro roff nbc id <= i -> block_val x id i y = row_acc (at_block id) x i y.
  Proof.
    intros Hid Hi. unfold block_val. destruct (made_makes id Hid) as [HM HD].
    rewrite (mblock_value_exact (local id) (rsz roff nbc id) (csz coff nbc id) (loc_range _ _ _ _ _ _ _ Hr Hc HE id Hid) _ _ _ _ _ one SR).
    - unfold CgbrProof.local. rewrite (loc_row_acc _ _ _ _ _ _ _ Hr Hc HE). f_equal. lia.
    - by apply (mk_same _ _ _ _ _ _ _ _ HM).
    - destruct (Hdec id) as [Hd|Hd]; [destruct (gb_mat (made_block id)); try done; by apply Hdist|].
      specialize (HD Hd). destruct (gb_mat (made_block id)); try done.
  Qed.
  Lemma row_val_exact x y : length y = rows -> imap (row_val x) y = y_plus_Ax E cols x y.
  Proof.
    intros Hy. rewrite <- (spmv_by_column_exact one SR rows E cols) by done.
    unfold spmv_by_column, spmv_in_order. apply imap_ext_lt. intros i yi Hi.
    rewrite <- (blocks_total roff nbr rows coff nbc cols E Hr Hc HE x i yi) by lia. unfold row_val.
    destruct (block_of_spec roff nbr rows i Hr ltac:(lia)) as [Hbi [Hb1 Hb2]].
    assert (Hgen : forall K z, (forall k, k ∈ K -> k ∈ row_blocks roff nbr brs i) ->
       fold_left (fun y k => block_val x (nth k I 0) i y) K z = fold_left (fun y k => row_acc (at_block (nth k I 0)) x i y) K z).
    { induction K as [|k K IH]; intros z HK; [done|]. cbn [fold_left].
      assert (Hk : k ∈ row_blocks roff nbr brs i) by (apply HK; left). unfold row_blocks in Hk. cbv zeta in Hk. apply elem_of_seq in Hk.
      pose proof (brs_between brs (brs_sorted roff nbr coff nbc E) (block_of roff nbr i) k ltac:(rewrite cntlt_S; lia)) as Hkb.
      unfold BlocksProof.brs in Hkb. rewrite list_lookup_fmap in Hkb. destruct (I !! k) as [id|] eqn:Hid; [|done]. injection Hkb as Hkb.
      rewrite (nth_lookup_Some I k 0 id Hid). rewrite block_val_exact.
      - apply IH. intros k' Hk'. apply HK. by right.
      - by eapply elem_of_list_lookup_2.
      - unfold ro. rewrite Hkb. lia. }
    apply Hgen. done.
  Qed.
  Lemma chunked_val_exact x parts y : length y = rows -> good_partition nbr brs parts -> imap (chunked_val x parts) y = y_plus_Ax E cols x y.
  Proof.
    intros Hy [Hlen Hgood]. rewrite <- (spmv_chunked_exact roff nbr rows coff nbc cols E Hr Hc HE x one SR parts y) by done.
    unfold spmv_chunked. apply imap_ext_lt. intros i yi Hi.
    destruct (block_of_spec roff nbr rows i Hr ltac:(lia)) as [Hbi [Hb1 Hb2]].
    destruct (lookup_lt_is_Some_2 parts (block_of roff nbr i)) as [chunks Hch]; [lia|].
    destruct (Hgood _ _ Hch) as [(Hcl & Hst & Hend & Hm) _].
    unfold chunked_val, row_chunks. rewrite (nth_lookup_Some parts _ [] chunks Hch). cbv zeta.
    assert (Hk : forall k z, cntlt brs (block_of roff nbr i) <= k < cntlt brs (S (block_of roff nbr i)) ->
       block_val x (nth k I 0) i z = row_acc (at_block (nth k I 0)) x i z).
    { intros k z Hk. pose proof (brs_between brs (brs_sorted roff nbr coff nbc E) (block_of roff nbr i) k Hk) as Hkb.
      unfold BlocksProof.brs in Hkb. rewrite list_lookup_fmap in Hkb. destruct (I !! k) as [id|] eqn:Hid; [|done]. injection Hkb as Hkb.
      rewrite (nth_lookup_Some I k 0 id Hid). apply block_val_exact; [by eapply elem_of_list_lookup_2|]. unfold ro. rewrite Hkb. lia. }
    rewrite <- Hst, <- Hend in Hk.
    assert (Hmono : forall a c, a <= c -> c < length chunks -> nth a chunks 0 <= nth c chunks 0).
    { intros a c Hac. induction Hac as [|c Hac IH]; intros Hcl2; [done|]. etrans; [apply IH; lia|]. apply Hm. lia. }
    assert (Hgen : forall fuel first last z, first <= last -> last <= length chunks - 1 -> 
      chunk_val fuel (fun k => block_val x (nth k I 0) i) chunks first last z = chunk_val fuel (fun k => row_acc (at_block (nth k I 0)) x i) chunks first last z).
    { induction fuel as [|f IH]; intros first last z Hfl Hll; [done|]. cbn [chunk_val].
      destruct (Nat.eqb_spec (last - first) 1) as [|].
      - assert (Hs : forall l z, Forall (fun k => nth 0 chunks 0 <= k < nth (length chunks - 1) chunks 0) l ->
          fold_left (fun y k => block_val x (nth k I 0) i y) l z = fold_left (fun y k => row_acc (at_block (nth k I 0)) x i y) l z).
        { induction l as [|k l IHl]; intros w Hf; [done|]. inversion_clear Hf. cbn [fold_left]. rewrite Hk by done. by apply IHl. }
        apply Hs. apply Forall_forall. intros k Hks. apply elem_of_seq in Hks.
        pose proof (Hmono 0 first ltac:(lia) ltac:(lia)). pose proof (Hmono last (length chunks - 1) ltac:(lia) ltac:(lia)). lia.
      - cbv zeta. assert (first <= (first + last) / 2 <= last).
        { split; [apply Nat.div_le_lower_bound; lia|apply Nat.div_le_upper_bound; lia]. }
        generalize dependent ((first + last) / 2). intros mid Hmid. rewrite !IH by lia. done. }
    apply Hgen; lia.
  Qed.
End ctor.
