(** Properties_Wide.v: C90, blocks with more rows or columns than the short index type can
    number.  [blockable], [workers_ok]: see Properties_Blocked.v; [submatrix], [block_rows]:
    see Properties_Cgbr.v. *)
From Verif Require Import WideProof Properties_Utils Properties_Simple Properties_Blocked Properties_Reuse Properties_Cgbr Choice Properties_Choice.
From Coq Require Import ZifyNat ZifyBool.

Section C90.
  Context {T : Type} `{Scalar T} `{Widths}.
  Implicit Types (B : coo T) (E L : list (elem T)) (x y : list T) (b : buf) (roff coff : list nat).

  (** inside its block, the row and the column of e are numbers of the short index type *)
  Definition fits roff nbr coff nbc (e : elem T) : Prop :=
    forall br bc, br < nbr -> bc < nbc -> in_block roff br (row e) -> in_block coff bc (col e) ->
      row e - nth br roff 0 < sitW /\ col e - nth bc coff 0 < sitW.

  Section facts.
    Context (rows cols : nat) E roff (nbr : nat) coff (nbc : nat).
    Context (HB : blockable (Coo rows cols E) roff nbr coff nbc).
    Notation I := (bids roff nbr coff nbc E).
    Notation local := (local roff nbr coff nbc E).
    Lemma wide_facts id : id ∈ I -> id / nbc < nbr /\ id mod nbc < nbc /\ same_elements (local id) (submatrix roff (id / nbc) coff (id mod nbc) E) /\
      rsz roff nbc id = block_rows roff (id / nbc) /\ csz coff nbc id = block_rows coff (id mod nbc) /\
      in_range (rsz roff nbc id) (csz coff nbc id) (local id) /\ ksorted row (local id) /\
      rsz roff nbc id + 1 < itW /\ length (local id) < itW /\ 0 < length (local id) /\ length (local id) = length (submatrix roff (id / nbc) coff (id mod nbc) E).
    Proof.
      destruct HB as (Hne & HE & Hr & Hc & H1 & H2 & H3 & H4 & H5 & H6). unfold c_nnz in *. cbn [c_rows c_cols c_elems] in *.
      intros Hid. destruct (bids_range _ _ _ _ _ _ _ Hr Hc HE id Hid) as (_ & D1 & D2 & D3).
      destruct (geometry_range _ _ _ _ _ _ _ Hr Hc HE id Hid) as (G1 & G2 & _).
      assert (Hs : same_elements (local id) (submatrix roff (id / nbc) coff (id mod nbc) E)) by (by eapply at_block_submatrix).
      assert (Hlen : length (local id) = length (submatrix roff (id / nbc) coff (id mod nbc) E)).
      { unfold same_elements in Hs. apply Permutation_length in Hs. by rewrite !fmap_length in Hs. }
      pose proof (loc_range _ _ _ _ _ _ _ Hr Hc HE id Hid) as Hlr.
      assert (Hpos : 0 < length (local id)).
      { apply bids_elem in Hid as (e & He & Hb). unfold CgbrProof.local. rewrite fmap_length.
        assert (e ∈ blocks_at roff nbr coff nbc E id) as Hin.
        { unfold blocks_at, group. apply elem_of_list_In, filter_In. split; [by apply elem_of_list_In|]. unfold has. by rewrite Hb, Nat.eqb_refl. }
        destruct (blocks_at roff nbr coff nbc E id); [by apply elem_of_nil in Hin|cbn; lia]. }
      split; [done|]. split; [done|]. split; [done|]. split; [done|]. split; [done|]. split; [exact Hlr|]. split; [apply blocks_at_sorted|].
      split; [lia|]. split; [|by split].
      unfold CgbrProof.local. rewrite fmap_length. pose proof (group_length blk id (bsorted roff nbr coff nbc E)) as Hgl.
      rewrite bsorted_length in Hgl. unfold blocks_at. lia.
    Qed.
    (** all elements fit exactly when the elements of every block do *)
    Lemma fits_local : Forall (fits roff nbr coff nbc) E -> forall id, id ∈ I -> Forall (fun e => row e < sitW /\ col e < sitW) (local id).
    Proof.
      destruct HB as (Hne & HE & Hr & Hc & H1 & H2 & H3 & H4 & H5 & H6). unfold c_nnz in *. cbn [c_rows c_cols c_elems] in *.
      intros Hf id Hid. unfold CgbrProof.local. rewrite Forall_fmap, Forall_forall. intros e [He Hb]%blocks_at_elem.
      pose proof (loc_inside _ _ _ _ _ _ _ Hr Hc HE e He) as [L1 L2]. rewrite Hb in L1, L2.
      destruct (bids_range _ _ _ _ _ _ _ Hr Hc HE id Hid) as (_ & D1 & D2 & D3).
      assert (Hc' : coords e ∈ coords <$> E) by (rewrite <- (bsorted_coords roff nbr coff nbc E); by apply elem_of_list_fmap_1).
      apply elem_of_list_fmap in Hc' as (e' & Heq & He'). injection Heq as E1 E2 E3. rewrite Forall_forall in Hf.
      specialize (Hf e' He' (id / nbc) (id mod nbc) D1 D2). unfold in_block in Hf. unfold compose, BlocksProof.loc. cbn [row col]. rewrite Hb.
      unfold ro, rsz, co, csz in *. rewrite <- E1, <- E2 in Hf. apply Hf; lia.
    Qed.
    Lemma unfit_local e : e ∈ E -> ~ fits roff nbr coff nbc e -> exists id, id ∈ I /\ ~ Forall (fun e => row e < sitW /\ col e < sitW) (local id).
    Proof.
      destruct HB as (Hne & HE & Hr & Hc & H1 & H2 & H3 & H4 & H5 & H6). unfold c_nnz in *. cbn [c_rows c_cols c_elems] in *.
      intros He Hn. assert (Hc' : coords e ∈ coords <$> bsorted roff nbr coff nbc E) by (rewrite bsorted_coords; by apply elem_of_list_fmap_1).
      apply elem_of_list_fmap in Hc' as (e' & Heq & He'). injection Heq as E1 E2 E3.
      pose proof (blk_in_bids roff nbr coff nbc E e' He') as Hid. exists (blk e'). split; [done|]. intros Hf. apply Hn.
      intros br bc Hbr Hbc [B1 B2] [B3 B4]. pose proof (loc_inside _ _ _ _ _ _ _ Hr Hc HE e' He') as [L1 L2].
      destruct (bids_range _ _ _ _ _ _ _ Hr Hc HE (blk e') Hid) as (_ & D1 & D2 & D3). unfold ro, rsz, co, csz in *.
      assert (Q1 : br = blk e' / nbc).
      { rewrite <- (block_of_unique _ _ _ (row e) _ Hr Hbr), <- (block_of_unique _ _ _ (row e) _ Hr D1); [done|unfold in_block; lia|unfold in_block; lia]. }
      assert (Q2 : bc = blk e' mod nbc).
      { rewrite <- (block_of_unique _ _ _ (col e) _ Hc Hbc), <- (block_of_unique _ _ _ (col e) _ Hc D2); [done|unfold in_block; lia|unfold in_block; lia]. }
      unfold CgbrProof.local in Hf. rewrite Forall_fmap, Forall_forall in Hf. specialize (Hf e').
      assert (Hin : e' ∈ blocks_at roff nbr coff nbc E (blk e')).
      { unfold blocks_at, group. apply elem_of_list_In, filter_In. split; [by apply elem_of_list_In|]. unfold has. apply Nat.eqb_refl. }
      apply Hf in Hin. unfold compose, BlocksProof.loc, ro, co in Hin. cbn [row col] in Hin. rewrite Q1, Q2, E1, E2. exact Hin.
    Qed.
  End facts.

  (** Cgbr, when every block with an element in it is stored as a list of coordinates: as long
      as positions inside the blocks fit the short type the sizes of the blocks do not matter *)
  Theorem C90_cgbr_fits (choose : nat -> nat -> nat -> kind) bal B roff nbr coff nbc workers x y b (one : T) : exact_arith T one ->
    (forall r c n, 0 < n -> choose r c n = KCoo) ->
    blockable B roff nbr coff nbc -> workers_ok B workers -> short_type ->
    Forall (fits roff nbr coff nbc) (c_elems B) ->
    c_cols B <= length x -> length y = c_rows B ->
    exists A balanced parts B', Coo_to_Cgbr choose bal workers B (full roff) nbr (full coff) nbc = Ok (A, balanced, parts, B') /\
      all_schedules (cgbr_spmv A balanced parts x b) (heap_of b y) tt (heap_of b (y_plus_Ax (c_elems B) (c_cols B) x y)) /\
      all_schedules (cgbr_spmv_serial A x b) (heap_of b y) tt (heap_of b (y_plus_Ax (c_elems B) (c_cols B) x y)).
  Proof.
    destruct B as [rows cols E]. intros SR Hch HB (W1 & W2 & W3) Hst Hfit Hx Hy.
    pose proof (wide_facts rows cols E roff nbr coff nbc HB) as Hfacts.
    assert (Hmk : forall id, id ∈ bids roff nbr coff nbc E -> exists (M : gblock T) ty L,
      makes (make_block choose) tag1 (local roff nbr coff nbc E id) (rsz roff nbc id) (csz coff nbc id) M ty L /\ (~ False -> ~ is_dense (gb_mat M))).
    { intros id Hid. destruct (Hfacts id Hid) as (F1 & F2 & F3 & F4 & F5 & F6 & F7 & F8 & F9 & F10 & F11).
      destruct (coo_block_makes choose (local roff nbr coff nbc E id) _ _ F6 (Hch _ _ _ F10) Hst (fits_local _ _ _ _ _ _ _ HB Hfit id Hid)) as (M & ty & L & HM & HD).
      exists M, ty, L. split; [exact HM|]. intros _. exact HD. }
    pose proof HB as (Hne & HE & Hr & Hc & H1 & H2 & H3 & H4 & H5 & H6). unfold c_nnz in *. cbn [c_rows c_cols c_elems] in *.
    destruct (Coo_to_Cgbr_spec roff nbr rows coff nbc cols E Hr Hc HE Hne H1 H2 H3 H4 H5 H6 (make_block choose) tag1 (fun _ => False) Hmk choose bal workers eq_refl W1 W2 W3)
      as (parts & HA & Hg). cbv zeta in HA, Hg. match type of HA with _ = Ok (_, ?v, _, _) => set (balanced := v) in * end.
    eexists _, balanced, parts, _. split; [exact HA|].
    assert (Hdist : forall id, id ∈ bids roff nbr coff nbc E -> False -> distinct_coords (local roff nbr coff nbc E id)) by done.
    assert (Hrow : forall x y, length y = rows -> imap (row_val roff nbr coff nbc E (make_block choose) x) y = y_plus_Ax E cols x y).
    { intros x' y' Hy'. eapply (row_val_exact roff nbr rows coff nbc cols E Hr Hc HE H1 H2 H4 H5 H6 (make_block choose) tag1 _ Hmk one SR Hdist); [|done].
      intros id. right. intros []. }
    split; [|rewrite <- Hrow by done; eapply matrix_serial; first [exact Hmk|exact Hg|by apply Hg|done]].
    unfold cgbr_spmv. destruct balanced.
    - rewrite <- Hrow by done. eapply matrix_balanced; first [exact Hmk|exact Hg|by apply Hg|done].
    - specialize (Hg eq_refl). assert (Hch' : imap (chunked_val roff nbr coff nbc E (make_block choose) x parts) y = y_plus_Ax E cols x y).
      { eapply (chunked_val_exact roff nbr rows coff nbc cols E Hr Hc HE H1 H2 H4 H5 H6 (make_block choose) tag1 _ Hmk one SR Hdist); [|done|done].
        intros id. right. intros []. }
      rewrite <- Hch'. eapply matrix_unbalanced; first [exact Hmk|exact Hg|by apply Hg|done].
  Qed.
  (** ... and if some position does not fit, construction ends in a failed assertion *)
  Theorem C90_cgbr_aborts (choose : nat -> nat -> nat -> kind) bal B roff nbr coff nbc workers :
    (forall r c n, 0 < n -> choose r c n = KCoo) ->
    blockable B roff nbr coff nbc -> sitW < itW -> (N.of_nat sitW < 2147483648)%N ->
    ~ Forall (fits roff nbr coff nbc) (c_elems B) ->
    Coo_to_Cgbr choose bal workers B (full roff) nbr (full coff) nbc = Abort.
  Proof.
    destruct B as [rows cols E]. intros Hch HB S1 S2 Hn.
    pose proof (wide_facts rows cols E roff nbr coff nbc HB) as Hfacts.
    pose proof HB as (Hne & HE & Hr & Hc & H1 & H2 & H3 & H4 & H5 & H6). unfold c_nnz in *. cbn [c_rows c_cols c_elems] in *.
    assert (Hbad : exists id, id ∈ bids roff nbr coff nbc E /\ ~ Forall (fun e => row e < sitW /\ col e < sitW) (local roff nbr coff nbc E id)).
    { destruct (Forall_Exists_dec (fun id => Forall (fun e => row e < sitW /\ col e < sitW) (local roff nbr coff nbc E id)) (fun id => ~ Forall (fun e => row e < sitW /\ col e < sitW) (local roff nbr coff nbc E id)) (fun id => decide (Forall _ _)) (bids roff nbr coff nbc E)) as [Hall|Hex].
      - exfalso. apply Hn, Forall_forall. intros e He br bc Hbr Hbc I1 I2. rewrite Forall_forall in Hall.
        assert (G : ~ ~ fits roff nbr coff nbc e). { intros G. destruct (unfit_local _ _ _ _ _ _ _ HB e He G) as (id & Hid & Hno). by apply Hno, Hall. }
        destruct (decide (row e - nth br roff 0 < sitW /\ col e - nth bc coff 0 < sitW)) as [D|D]; [done|]. exfalso. apply G. intros F. by apply D, F.
      - apply Exists_exists in Hex as (id & Hid & Hno). by exists id. }
    destruct Hbad as (id & Hid & Hbad).
    unfold Coo_to_Cgbr. cbn [c_elems c_rows c_cols].
    rewrite (calculate_block_id_numbered E roff nbr coff nbc rows cols Hr Hc HE ltac:(lia) ltac:(lia) (proj1 H3)). cbn [mbind outcome_bind].
    rewrite sort_elements_blocks_spec. cbn [mbind outcome_bind]. fold (bsorted roff nbr coff nbc E).
    rewrite count_bids by done. cbn [mbind outcome_bind].
    rewrite (check_blocking_ok roff nbr rows coff nbc cols Hr Hc H1 H2). cbn [mbind outcome_bind].
    assert (Hall : forall id, id ∈ bids roff nbr coff nbc E ->
       (make_block choose (local roff nbr coff nbc E id) (rsz roff nbc id) (csz coff nbc id) = Abort /\ ~ Forall (fun e => row e < sitW /\ col e < sitW) (local roff nbr coff nbc E id)) \/
       exists (M : gblock T) ty L', make_block choose (local roff nbr coff nbc E id) (rsz roff nbc id) (csz coff nbc id) = Ok (M, ty, L') /\ length L' = length (local roff nbr coff nbc E id) /\ ty < MATRIX_TYPE_NUM).
    { intros id' Hid'. destruct (Hfacts id' Hid') as (_ & _ & _ & _ & _ & _ & _ & _ & _ & F10 & _). apply coo_block_all; [by apply Hch|done|done]. }
    rewrite (fill_abort roff nbr rows coff nbc cols E Hr Hc HE Hne H1 H2 H3 H4 H5 H6 (make_block choose)) with (id := id); [done| |done|].
    - intros id' Hid'. destruct (Hall id' Hid') as [[HA _]|HA]; [by left|by right].
    - destruct (Hall id Hid) as [[HA _]|(M & ty & L & HA & _)]; [done|exfalso].
      unfold make_block in HA. destruct (Hfacts id Hid) as (_ & _ & _ & _ & _ & _ & _ & _ & _ & F10 & _). rewrite Hch in HA by done.
      destruct (Coo_to_BlockCoo_spec (local roff nbr coff nbc E id) S1 S2) as [[Hf _]|[_ Hb]]; [done|]. by rewrite Hb in HA.
  Qed.

  (** Cgbr2 does not check.  What a block of format k whose first row is r0 and first column c0
      keeps of an element: coordinates are taken modulo the size of the short type, both of them
      in a list of coordinates, the column in compressed rows *)
  Definition cut (k : kind2) (r0 c0 : nat) (e : elem T) : elem T :=
    match k with
    | K2Coo => Elem (r0 + (row e - r0) mod sitW) (c0 + (col e - c0) mod sitW) (val e) 0
    | K2CsrSerial | K2CsrParallel => Elem (row e) (c0 + (col e - c0) mod sitW) (val e) 0
    | K2Dense => Elem (row e) (col e) (val e) 0
    end.
  (** ... for the element's own block among the elements E *)
  Definition stored (choose : nat -> nat -> nat -> kind2) roff nbr coff nbc E (e : elem T) : elem T :=
    let br := block_of roff nbr (row e) in
    let bc := block_of coff nbc (col e) in
    cut (choose (block_rows roff br) (block_rows coff bc) (length (submatrix roff br coff bc E))) (nth br roff 0) (nth bc coff 0) e.

  Lemma cut_range k rs cs L : 0 < sitW -> in_range rs cs L -> in_range rs cs (cut k 0 0 <$> L).
  Proof.
    unfold in_range. rewrite Forall_fmap. intros Hsp HL. eapply Forall_impl; [exact HL|]. cbv beta. intros e [He1 He2].
    pose proof (Nat.mod_le (row e - 0) sitW ltac:(lia)). pose proof (Nat.mod_le (col e - 0) sitW ltac:(lia)).
    destruct k; unfold compose; cbn [cut row col]; lia.
  Qed.
  (** what a block of Cgbr2 multiplies by *)
  Lemma block2_sees choose L rs cs (one : T) : exact_arith T one -> 0 < sitW -> in_range rs cs L -> ksorted row L -> rs + 1 < itW -> length L < itW ->
    (choose rs cs (length L) = K2Dense -> small_distinct rs cs L) ->
    let k := choose rs cs (length L) in
    let L' := match k with K2Coo => isort compare_morton L | _ => L end in
    exists (M : gblock T) ty, make_block2 (fun L r c => choose r c (length L)) L rs cs = Ok (M, ty, L') /\ ty < MATRIX_TYPE_NUM /\
      forall x xo b o, xo + cs <= length x ->
        performs (mblock_spmv (gb_mat M) x xo b o) b o rs (fun _ => False) (row_acc (cut k 0 0 <$> L') (drop xo x)).
  Proof.
    intros SR Hsp HL Hs Hrs Hn Hd. cbv zeta. unfold make_block2.
    assert (Hcsr : csr_rep (full (ptrs (row <$> L) rs)) 0 (full ((fun e => swrap (col e)) <$> L)) (full (val <$> L)) 0 rs (fun i => bfilter (in_row i) (cut K2CsrSerial 0 0 <$> L))).
    { pose proof (csr_build_rep swrap (cut K2CsrSerial 0 0 <$> L) rs) as Hrep. rewrite <- !list_fmap_compose in Hrep.
      assert (E1 : (fun e : elem T => swrap (col e)) ∘ cut K2CsrSerial 0 0 <$> L = (fun e : elem T => swrap (col e)) <$> L).
      { apply list_fmap_ext. intros i e _. unfold compose. cbn [cut col]. unfold swrap. rewrite Nat.sub_0_r. cbn [Nat.add]. apply Nat.mod_mod. lia. }
      rewrite E1 in Hrep. apply Hrep.
      - unfold ksorted in *. rewrite StronglySorted_fmap_iff. exact Hs.
      - apply Forall_fmap, Forall_forall. intros e _. unfold compose. cbn [cut col]. unfold swrap. rewrite Nat.sub_0_r. cbn [Nat.add]. apply Nat.mod_mod. lia. }
    assert (Hcols : forall i, Forall (fun e => col e < cs) (bfilter (in_row i) (cut K2CsrSerial 0 0 <$> L))).
    { intros i. apply Forall_forall. intros e [He _]%elem_of_bfilter. pose proof (cut_range K2CsrSerial rs cs L Hsp HL) as Hr. unfold in_range in Hr. rewrite Forall_forall in Hr. by apply Hr. }
    assert (Hspec : Coo_to_BlockCsr L rs cs = Ok (Csr rs cs (full (ptrs (row <$> L) rs)) (full ((fun e => swrap (col e)) <$> L)) (full (val <$> L)))).
    { unfold Coo_to_BlockCsr. apply csr_build_spec; [|done|done]. eapply Forall_impl; [exact HL|]. cbn. tauto. }
    destruct (choose rs cs (length L)) eqn:Hk.
    - set (L' := isort compare_morton L). eexists _, _. split.
      + unfold new_Coo. rewrite sort_triplets_morton_spec. cbn [mbind outcome_bind]. rewrite copy_points_spec. reflexivity.
      + split; [unfold BLOCK_COO, MATRIX_TYPE_NUM; lia|]. intros x xo b o Hx. cbn [gb_mat mblock_spmv].
        pose proof (performs_coo1_spmv (fun i => i) (cut K2Coo 0 0 <$> L') rs cs x xo b o (fun _ => False)) as Hp.
        rewrite <- !list_fmap_compose, fmap_length in Hp.
        assert (E1 : (fun e : elem T => row e) ∘ cut K2Coo 0 0 <$> L' = (fun e : elem T => swrap (row e)) <$> L').
        { apply list_fmap_ext. intros i e _. unfold compose. cbn [cut row]. unfold swrap. by rewrite Nat.sub_0_r. }
        assert (E2 : (fun e : elem T => col e) ∘ cut K2Coo 0 0 <$> L' = (fun e : elem T => swrap (col e)) <$> L').
        { apply list_fmap_ext. intros i e _. unfold compose. cbn [cut col]. unfold swrap. by rewrite Nat.sub_0_r. }
        assert (E3 : val ∘ cut K2Coo 0 0 <$> L' = val <$> L') by (apply list_fmap_ext; by intros i e _).
        rewrite E1, E2, E3 in Hp. apply Hp; [by apply Forall_forall| |done]. apply cut_range; [done|]. unfold in_range, L'. by rewrite isort_perm.
    - eexists _, _. split; [rewrite Hspec; reflexivity|]. split; [unfold BLOCK_CSR, MATRIX_TYPE_NUM; lia|]. intros x xo b o Hx. cbn [gb_mat mblock_spmv csr_ptr csr_ind csr_vals csr_rows].
      eapply performs_ext; [|eapply (performs_spmv_csr_serial _ 0 _ _ _ _ (fun i => bfilter (in_row i) (cut K2CsrSerial 0 0 <$> L)) cs)]; [done|exact Hcsr|by intros i _|done|].
      intros _. eexists. apply ptrs_get. lia.
    - eexists _, _. split; [rewrite Hspec; reflexivity|]. split; [unfold BLOCK_CSR_PAR, MATRIX_TYPE_NUM; lia|]. intros x xo b o Hx. cbn [gb_mat mblock_spmv csr_ptr csr_ind csr_vals csr_rows].
      eapply performs_ext; [|eapply (performs_spmv_csr _ 0 _ _ _ _ (fun i => bfilter (in_row i) (cut K2CsrSerial 0 0 <$> L)) cs)]; [done|exact Hcsr|by intros i _|done].
    - destruct (Hd eq_refl) as [Hsm Hdist]. eexists _, _. split; [rewrite dense_fill_spec by done; reflexivity|]. split; [unfold BLOCK_DENSE, MATRIX_TYPE_NUM; lia|].
      intros x xo b o Hx. cbn [gb_mat mblock_spmv]. eapply performs_ext; [|by apply performs_dense_spmv]. cbv beta. intros i y Hi.
      transitivity (row_acc L (drop xo x) i y).
      + eapply (mblock_value_exact L rs cs HL (MDense _) L _ i y one SR); done.
      + apply row_acc_coords. rewrite <- list_fmap_compose. apply list_fmap_ext. by intros j e _.
    Unshelve. exact (Dense 0 0 []).
  Qed.

  (** Cgbr2 multiplies by the matrix of the elements as stored *)
  Theorem C90_cgbr2_stored (choose : nat -> nat -> nat -> kind2) B roff nbr coff nbc workers (one : T) : exact_arith T one -> 0 < sitW ->
    blockable B roff nbr coff nbc -> workers_ok B workers ->
    dense_blocks2 (fun L r c => choose r c (length L)) B roff nbr coff nbc small_distinct ->
    exists A parts B', Coo_to_Cgbr2 (make_block2 (fun L r c => choose r c (length L))) workers B (full roff) nbr (full coff) nbc = Ok (A, parts, B') /\
      forall balanced x y b, c_cols B <= length x -> length y = c_rows B ->
        all_schedules (cgbr2_spmv A balanced parts x b) (heap_of b y) tt
          (heap_of b (y_plus_Ax (stored choose roff nbr coff nbc (c_elems B) <$> c_elems B) (c_cols B) x y)).
  Proof.
    destruct B as [rows cols E]. intros SR Hsp HB (W1 & W2 & W3) Hd.
    pose proof (wide_facts rows cols E roff nbr coff nbc HB) as Hfacts.
    pose proof HB as (Hne & HE & Hr & Hc & H1 & H2 & H3 & H4 & H5 & H6). unfold c_nnz in *. cbn [c_rows c_cols c_elems] in *.
    set (make := make_block2 (fun L r c => choose r c (length L))).
    set (kind := fun id => choose (rsz roff nbc id) (csz coff nbc id) (length (local roff nbr coff nbc E id))).
    set (left := fun id => match kind id with K2Coo => isort compare_morton (local roff nbr coff nbc E id) | _ => local roff nbr coff nbc E id end).
    set (seen := fun id => cut (kind id) 0 0 <$> left id).
    assert (Hleft : forall id, left id ≡ₚ local roff nbr coff nbc E id).
    { intros id. unfold left. destruct (kind id); try done. apply isort_perm. }
    assert (Hmk : forall id, id ∈ bids roff nbr coff nbc E -> exists (M : gblock T) ty L, make (local roff nbr coff nbc E id) (rsz roff nbc id) (csz coff nbc id) = Ok (M, ty, L) /\
      length L = length (local roff nbr coff nbc E id) /\ ty < MATRIX_TYPE_NUM /\
      forall x xo b o, xo + csz coff nbc id <= length x ->
        performs (mblock_spmv (gb_mat M) x xo b o) b o (rsz roff nbc id) (fun _ => False) (row_acc (seen id) (drop xo x))).
    { intros id Hid. destruct (Hfacts id Hid) as (F1 & F2 & F3 & F4 & F5 & F6 & F7 & F8 & F9 & F10 & F11).
      destruct (block2_sees choose (local roff nbr coff nbc E id) (rsz roff nbc id) (csz coff nbc id) one SR Hsp F6 F7 F8 F9) as (M & ty & HM & Hty & Hp).
      { intros Hk. rewrite F4, F5. apply (Hd _ _ _ F1 F2 F3). by rewrite <- F4, <- F5. }
      exists M, ty, (left id). split; [exact HM|]. split; [by rewrite Hleft|]. split; [done|]. exact Hp. }
    assert (Hin : forall id, id ∈ bids roff nbr coff nbc E -> in_range (rsz roff nbc id) (csz coff nbc id) (seen id)).
    { intros id Hid. destruct (Hfacts id Hid) as (_ & _ & _ & _ & _ & F6 & _). apply cut_range; [done|]. unfold in_range. by rewrite Hleft. }
    destruct (seen_product roff nbr rows coff nbc cols E Hr Hc HE Hne H1 H2 H3 H4 H5 H6 make seen Hmk Hin one SR workers W1 W2 W3) as (A & parts & B' & HA & Hp).
    exists A, parts, B'. split; [exact HA|]. intros balanced x y b Hx Hy. specialize (Hp balanced x y b Hx Hy).
    rewrite <- (y_plus_Ax_coords (WideProof.shown roff nbr coff nbc E seen) _ cols x y one SR); [exact Hp|].
    (* the same elements *)
    unfold same_elements.
    assert (Hwith : stored choose roff nbr coff nbc E <$> E = (fun e => cut (kind (blk e)) (ro roff nbc (blk e)) (co coff nbc (blk e)) e) <$> with_ids roff nbr coff nbc E).
    { unfold with_ids. rewrite <- list_fmap_compose. apply Forall_fmap_ext_1, Forall_forall. intros e He. unfold in_range in HE.
      pose proof (proj1 (Forall_forall _ _) HE e He) as [He1 He2]. unfold compose. cbn [set_blk blk row col val].
      assert (Hid : block_id roff nbr coff nbc e ∈ bids roff nbr coff nbc E).
      { apply (blk_in_bids roff nbr coff nbc E (set_blk (block_id roff nbr coff nbc e) e)). rewrite bsorted_perm. unfold with_ids. apply elem_of_list_fmap. by exists e. }
      destruct (Hfacts _ Hid) as (_ & _ & _ & F4 & F5 & _ & _ & _ & _ & _ & F11). destruct (block_id_div roff nbr coff nbc cols e Hc He2) as [Q1 Q2].
      unfold stored, kind, ro, co. rewrite F4, F5, F11, Q1, Q2. unfold cut. cbn [row col val]. by destruct (choose _ _ _). }
    rewrite Hwith, <- bsorted_perm, <- all_blocks. unfold WideProof.shown.
    assert (Hgen : forall K, (forall id, id ∈ K -> id ∈ bids roff nbr coff nbc E) ->
      coords <$> mjoin ((fun id => global roff coff nbc id <$> seen id) <$> K) ≡ₚ
      coords <$> ((fun e => cut (kind (blk e)) (ro roff nbc (blk e)) (co coff nbc (blk e)) e) <$> mjoin (blocks_at roff nbr coff nbc E <$> K))).
    { induction K as [|id K IH]; intros HK; [done|].
      change (mjoin ((fun id => global roff coff nbc id <$> seen id) <$> id :: K)) with ((global roff coff nbc id <$> seen id) ++ mjoin ((fun id => global roff coff nbc id <$> seen id) <$> K)).
      change (mjoin (blocks_at roff nbr coff nbc E <$> id :: K)) with (blocks_at roff nbr coff nbc E id ++ mjoin (blocks_at roff nbr coff nbc E <$> K)).
      rewrite !fmap_app. apply Permutation_app; [|apply IH; intros id' Hid'; apply HK; by right].
      unfold seen. rewrite (Hleft id). apply reflexive_eq. unfold CgbrProof.local. rewrite <- !list_fmap_compose. apply list_fmap_ext.
      intros k e He. apply elem_of_list_lookup_2, blocks_at_elem in He as [He Hb]. pose proof (loc_inside _ _ _ _ _ _ _ Hr Hc HE e He) as [G1 G2]. rewrite Hb in G1, G2.
      unfold compose, coords, global, BlocksProof.loc. cbn [row col val blk]. rewrite Hb.
      destruct (kind id); cbn [cut row col val]; rewrite ?Nat.sub_0_r; cbn [Nat.add]; f_equal; f_equal; lia. }
    by apply Hgen.
  Qed.
End C90.

Section C90_more.
  Context {T : Type} `{Scalar T} `{Widths}.
  Implicit Types (B : coo T) (E L : list (elem T)) (x y : list T) (b : buf) (roff coff : list nat).
  (** with the decision of the code (C84) *)
  Theorem C90_cgbr_default (t i s : nat) B roff nbr coff nbc workers x y b (one : T) : exact_arith T one -> s < t -> t <= 16 ->
    blockable B roff nbr coff nbc -> workers_ok B workers -> sitW < itW -> (N.of_nat sitW < 2147483648)%N ->
    c_cols B <= length x -> length y = c_rows B ->
    (Forall (fits roff nbr coff nbc) (c_elems B) /\
     exists A balanced parts B', Coo_to_Cgbr (float_choose t i s) float_balanced workers B (full roff) nbr (full coff) nbc = Ok (A, balanced, parts, B') /\
      all_schedules (cgbr_spmv A balanced parts x b) (heap_of b y) tt (heap_of b (y_plus_Ax (c_elems B) (c_cols B) x y)) /\
      all_schedules (cgbr_spmv_serial A x b) (heap_of b y) tt (heap_of b (y_plus_Ax (c_elems B) (c_cols B) x y))) \/
    (~ Forall (fits roff nbr coff nbc) (c_elems B) /\ Coo_to_Cgbr (float_choose t i s) float_balanced workers B (full roff) nbr (full coff) nbc = Abort).
  Proof.
    intros SR Hs Ht HB HW S1 S2 Hx Hy.
    assert (Hch : forall r c n, 0 < n -> float_choose t i s r c n = KCoo) by (intros r c n Hn; apply C84_always_coo; [done|done|by left]).
    assert (Hdec : Forall (fits roff nbr coff nbc) (c_elems B) \/ ~ Forall (fits roff nbr coff nbc) (c_elems B)).
    { assert (Hfd : forall e : elem T, in_block roff (block_of roff nbr (row e)) (row e) /\ block_of roff nbr (row e) < nbr -> in_block coff (block_of coff nbc (col e)) (col e) /\ block_of coff nbc (col e) < nbc ->
        fits roff nbr coff nbc e <-> row e - nth (block_of roff nbr (row e)) roff 0 < sitW /\ col e - nth (block_of coff nbc (col e)) coff 0 < sitW).
      { intros e [I1 I2] [I3 I4]. split; [intros Hf; by apply Hf|]. intros Hf br bc Hbr Hbc J1 J2.
        destruct HB as (_ & _ & Hr & Hc & _). by rewrite (block_of_unique _ _ _ _ _ Hr Hbr J1), (block_of_unique _ _ _ _ _ Hc Hbc J2) in Hf. }
      destruct HB as (_ & HE & Hr & Hc & _).
      destruct (decide (Forall (fun e => row e - nth (block_of roff nbr (row e)) roff 0 < sitW /\ col e - nth (block_of coff nbc (col e)) coff 0 < sitW) (c_elems B))) as [D|D].
      - left. rewrite Forall_forall in D |- *. intros e He. unfold in_range in HE. rewrite Forall_forall in HE. destruct (HE e He) as [He1 He2].
        pose proof (block_of_spec _ _ _ _ Hr He1) as [P1 P2]; pose proof (block_of_spec _ _ _ _ Hc He2) as [P3 P4]. apply (Hfd e (conj P2 P1) (conj P4 P3)); by apply D.
      - right. intros F. apply D. rewrite Forall_forall in F |- *. intros e He. unfold in_range in HE. rewrite Forall_forall in HE. destruct (HE e He) as [He1 He2].
        pose proof (block_of_spec _ _ _ _ Hr He1) as [P1 P2]; pose proof (block_of_spec _ _ _ _ Hc He2) as [P3 P4]. exact (proj1 (Hfd e (conj P2 P1) (conj P4 P3)) (F e He)). }
    destruct Hdec as [D|D]; [left|right]; (split; [exact D|]).
    - apply C90_cgbr_fits with one; try done. right. by split.
    - by apply C90_cgbr_aborts.
  Qed.
  (** One row, one element v in column sitW, one block: Cgbr2 multiplies v by x[0] *)
  Theorem C90_cgbr2_silent_refuted (choose : nat -> nat -> nat -> kind2) (v y0 : T) x b workers (one : T) : exact_arith T one ->
    0 < sitW -> sitW + 8 < itW -> 0 < workers -> 2 * workers < itW -> choose 1 (S sitW) 1 <> K2Dense -> length x = S sitW ->
    exists A parts B', Coo_to_Cgbr2 (make_block2 (fun L r c => choose r c (length L))) workers (Coo 1 (S sitW) [Elem 0 sitW v 0]) (full [0; 1]) 1 (full [0; S sitW]) 1 = Ok (A, parts, B') /\
      forall balanced, all_schedules (cgbr2_spmv A balanced parts x b) (heap_of b [y0]) tt (heap_of b [sadd y0 (smul v (nth 0 x s0))]).
  Proof.
    intros SR S1 S2 W1 W2 Hk Hx. set (B := Coo 1 (S sitW) [Elem 0 sitW v 0]).
    assert (Hr : blocking [0; 1] 1 1) by (unfold blocking; repeat split; try done; intros i Hi; replace i with 0 by lia; cbn; lia).
    assert (Hc : blocking [0; S sitW] 1 (S sitW)) by (unfold blocking; repeat split; try done; intros i Hi; replace i with 0 by lia; cbn; lia).
    assert (HB : blockable B [0; 1] 1 [0; S sitW] 1).
    { apply blockable_few. unfold B, c_nnz. cbn [c_rows c_cols c_elems length]. split; [done|]. split; [constructor; [cbn; lia|constructor]|]. split; [done|]. split; [done|]. lia. }
    assert (Hsub : submatrix [0; 1] 0 [0; S sitW] 0 [Elem 0 sitW v 0] = [Elem 0 sitW v 0]).
    { unfold submatrix. cbn [List.filter row col nth]. rewrite (proj2 (Nat.ltb_lt sitW (S sitW))) by lia. cbn. by rewrite Nat.sub_0_r. }
    destruct (C90_cgbr2_stored choose B [0; 1] 1 [0; S sitW] 1 workers one SR S1 HB) as (A & parts & B' & HA & Hp).
    { unfold workers_ok, c_nnz, B. cbn [c_elems length]. lia. }
    { intros br bc L Hbr Hbc HL Hd. replace br with 0 in * by lia. replace bc with 0 in * by lia. exfalso. apply Hk.
      unfold B in HL. cbn [c_elems] in HL. rewrite Hsub in HL. unfold same_elements in HL. apply Permutation_length in HL. rewrite !fmap_length in HL. cbn in HL. rewrite HL in Hd.
      unfold block_rows in Hd. cbn [nth] in Hd. by rewrite !Nat.sub_0_r in Hd. }
    exists A, parts, B'. split; [exact HA|]. intros balanced. specialize (Hp balanced x [y0] b).
    assert (Hst : stored choose [0; 1] 1 [0; S sitW] 1 (c_elems B) <$> c_elems B = [Elem 0 0 v 0]).
    { unfold B. cbn [c_elems fmap list_fmap]. f_equal. unfold stored. cbn [row col].
      rewrite (block_of_unique _ _ _ 0 0 Hr ltac:(lia) ltac:(unfold in_block; cbn; lia)), (block_of_unique _ _ _ sitW 0 Hc ltac:(lia) ltac:(unfold in_block; cbn; lia)).
      rewrite Hsub. unfold block_rows. cbn [nth length]. rewrite !Nat.sub_0_r.
      assert (Hmod : sitW mod sitW = 0) by (apply Nat.mod_same; lia). assert (Hmod0 : 0 mod sitW = 0) by (apply Nat.mod_0_l; lia).
      destruct (choose 1 (S sitW) 1); try done; unfold cut; cbn [row col val]; rewrite !Nat.sub_0_r, Hmod, ?Hmod0; done. }
    rewrite Hst in Hp. cbn [c_cols c_rows B] in Hp.
    assert (Hval : y_plus_Ax [Elem 0 0 v 0] (S sitW) x [y0] = [sadd y0 (smul v (nth 0 x s0))]).
    { rewrite <- (spmv_in_order_exact one SR 1) by (first [done|constructor; [cbn; lia|constructor]]). done. }
    rewrite Hval in Hp. apply Hp; [lia|done].
  Qed.

  (** Csbr3 does not check either.  Blocks of bs rows and columns: row i lies in block row
      i / bs, at position i mod bs, of which the block keeps the value modulo sitW *)
  Definition stored3 (bs : nat) (e : elem T) : elem T :=
    Elem (row e / bs * bs + (row e mod bs) mod sitW) (col e / bs * bs + (col e mod bs) mod sitW) (val e) 0.
  (** as [blockable3] (Properties_Blocked.v), without bs <= sitW *)
  Definition blockable3_wide (B : coo T) (bs : nat) : Prop :=
    c_elems B <> [] /\ in_range (c_rows B) (c_cols B) (c_elems B) /\
    0 < bs /\ ceil_nb (c_rows B) bs * ceil_nb (c_cols B) bs < itW /\
    c_rows B + bs < itW /\ c_cols B + bs < itW /\ c_nnz B + 1 < itW.
  Theorem C90_csbr3_stored B bs x y b (one : T) : exact_arith T one -> 0 < sitW -> blockable3_wide B bs -> c_cols B <= length x -> length y = c_rows B ->
    exists A B', Coo_to_Csbr3 B bs = Ok (A, B') /\
      all_schedules (csbr3_spmv_balanced A x b) (heap_of b y) tt (heap_of b (y_plus_Ax (stored3 bs <$> c_elems B) (c_cols B) x y)).
  Proof.
    destruct B as [rows cols E]. unfold blockable3_wide, c_nnz. cbn [c_rows c_cols c_elems]. intros SR Hsit (Hne & HE & Hbs & H1 & H2 & H3 & H4) Hx Hy.
    eexists _, _. split; [by apply Coo_to_Csbr3_cut|].
    pose proof (ceil_off_blocking rows bs Hbs) as Hr. pose proof (ceil_off_blocking cols bs Hbs) as Hc.
    set (roff := ceil_off rows bs) in *. set (coff := ceil_off cols bs) in *. set (nbr := ceil_nb rows bs) in *. set (nbc := ceil_nb cols bs) in *.
    pose proof (csbr3_wide_spmv rows cols bs E Hbs HE H1 H2 H3 H4 Hsit x b y one SR Hx Hy) as Hp.
    fold roff coff nbr nbc in Hp.
    rewrite <- (y_plus_Ax_coords (WideProof.shown roff nbr coff nbc E (fun id => cut3 <$> local roff nbr coff nbc E id)) _ cols x y one SR); [exact Hp|]. unfold same_elements. clear Hp.
    assert (Hwith : coords <$> (stored3 bs <$> E) = coords <$> ((fun e => global roff coff nbc (blk e) (cut3 (BlocksProof.loc roff coff nbc e))) <$> with_ids roff nbr coff nbc E)).
    { unfold with_ids. rewrite <- !list_fmap_compose. apply Forall_fmap_ext_1, Forall_forall. intros e He. unfold in_range in HE.
      pose proof (proj1 (Forall_forall _ _) HE e He) as [He1 He2]. unfold compose. destruct (block_id_div roff nbr coff nbc cols e Hc He2) as [Q1 Q2].
      unfold coords, stored3, global, cut3, BlocksProof.loc, ro, co. cbn [row col val blk set_blk]. rewrite Q1, Q2.
      destruct (block_of_spec _ _ _ _ Hr He1) as [B1 _]. destruct (block_of_spec _ _ _ _ Hc He2) as [B2 _].
      destruct (ceil_off_lt rows bs _ Hbs B1) as [R1 _]. destruct (ceil_off_lt cols bs _ Hbs B2) as [R2 _]. fold roff in R1. fold coff in R2. rewrite R1, R2.
      unfold roff, coff, nbr, nbc. rewrite !ceil_block_of by done. unfold swrap. rewrite !Nat.mod_eq with (b := bs) by lia.
      rewrite (Nat.mul_comm bs (row e / bs)), (Nat.mul_comm bs (col e / bs)). done. }
    rewrite Hwith, <- bsorted_perm, <- all_blocks. unfold WideProof.shown.
    assert (Hgen : forall K, coords <$> mjoin ((fun id => global roff coff nbc id <$> (cut3 <$> local roff nbr coff nbc E id)) <$> K) =
      coords <$> ((fun e => global roff coff nbc (blk e) (cut3 (BlocksProof.loc roff coff nbc e))) <$> mjoin (blocks_at roff nbr coff nbc E <$> K))).
    { induction K as [|id K IH]; [done|].
      change (mjoin ((fun id => global roff coff nbc id <$> (cut3 <$> local roff nbr coff nbc E id)) <$> id :: K)) with ((global roff coff nbc id <$> (cut3 <$> local roff nbr coff nbc E id)) ++ mjoin ((fun id => global roff coff nbc id <$> (cut3 <$> local roff nbr coff nbc E id)) <$> K)).
      change (mjoin (blocks_at roff nbr coff nbc E <$> id :: K)) with (blocks_at roff nbr coff nbc E id ++ mjoin (blocks_at roff nbr coff nbc E <$> K)).
      rewrite !fmap_app. f_equal; [|exact IH]. unfold CgbrProof.local. rewrite <- !list_fmap_compose. apply list_fmap_ext.
      intros k e He. apply elem_of_list_lookup_2, blocks_at_elem in He as [He Hb]. unfold compose. by rewrite Hb. }
    by rewrite Hgen.
  Qed.
  (** Csbr3 with blocks of two columns and a short type that numbers one: the element in
      column 1 is multiplied by x[0]; and in general the element in column sitW *)
  Theorem C90_csbr3_silent_refuted (v y0 : T) x b (one : T) : exact_arith T one ->
    0 < sitW -> 2 * sitW + 4 < itW -> length x = S sitW ->
    exists A B', Coo_to_Csbr3 (Coo 1 (S sitW) [Elem 0 sitW v 0]) (S sitW) = Ok (A, B') /\
      all_schedules (csbr3_spmv_balanced A x b) (heap_of b [y0]) tt (heap_of b [sadd y0 (smul v (nth 0 x s0))]).
  Proof.
    intros SR S1 S2 Hx. set (B := Coo 1 (S sitW) [Elem 0 sitW v 0]).
    assert (N1 : ceil_nb 1 (S sitW) = 1). { unfold ceil_nb. replace (1 + S sitW - 1) with (1 * S sitW) by lia. apply Nat.div_mul. lia. }
    assert (N2 : ceil_nb (S sitW) (S sitW) = 1). { unfold ceil_nb. symmetry. apply (Nat.div_unique _ _ 1 sitW); lia. }
    destruct (C90_csbr3_stored B (S sitW) x [y0] b one SR S1) as (A & B' & HA & Hp).
    { unfold blockable3_wide, B, c_nnz. cbn [c_rows c_cols c_elems length]. rewrite N1, N2. split; [done|]. split; [constructor; [cbn; lia|constructor]|]. lia. }
    { unfold B. cbn [c_cols]. lia. }
    { done. }
    exists A, B'. split; [exact HA|].
    assert (Hst : stored3 (S sitW) <$> c_elems B = [Elem 0 0 v 0]).
    { unfold B, stored3. cbn [c_elems fmap list_fmap row col val]. rewrite (Nat.div_small 0), (Nat.div_small sitW), (Nat.mod_small 0 (S sitW)), (Nat.mod_small sitW (S sitW)) by lia.
      rewrite Nat.mod_same, Nat.mod_0_l by lia. done. }
    rewrite Hst in Hp. cbn [c_cols B] in Hp.
    assert (Hval : y_plus_Ax [Elem 0 0 v 0] (S sitW) x [y0] = [sadd y0 (smul v (nth 0 x s0))]).
    { rewrite <- (spmv_in_order_exact one SR 1) by (first [done|constructor; [cbn; lia|constructor]]). done. }
    by rewrite Hval in Hp.
  Qed.
End C90_more.

(** the hypotheses are met: a 4 x 5 matrix in one block, short types of 2 and of 3 values; all
    elements of the first matrix fit, the second has one that does not *)
Definition w16 (s : nat) : Widths := {| itW := 64; sitW := s |}.
Definition wide_B1 : coo Z := Coo 4 5 [Elem 0 1 7%Z 0; Elem 2 2 3%Z 0; Elem 1 0 (-2)%Z 0].
Definition wide_B2 : coo Z := Coo 4 5 [Elem 0 1 7%Z 0; Elem 3 4 3%Z 0; Elem 1 0 (-2)%Z 0].
Example C90_ex : exact_arith Z 1%Z /\
  (let _ := w16 3 in blockable wide_B1 [0; 4] 1 [0; 5] 1 /\ workers_ok wide_B1 2 /\ short_type /\ ~ short_blocks [0; 4] 1 [0; 5] 1 /\ Forall (fits [0; 4] 1 [0; 5] 1) (c_elems wide_B1)) /\
  (let _ := w16 3 in blockable wide_B2 [0; 4] 1 [0; 5] 1 /\ workers_ok wide_B2 2 /\ ~ Forall (fits [0; 4] 1 [0; 5] 1) (c_elems wide_B2) /\
     stored (fun _ _ _ => K2Coo) [0; 4] 1 [0; 5] 1 (c_elems wide_B2) <$> c_elems wide_B2 = [Elem 0 1 7%Z 0; Elem 0 1 3%Z 0; Elem 1 0 (-2)%Z 0] /\
     stored (fun _ _ _ => K2CsrSerial) [0; 4] 1 [0; 5] 1 (c_elems wide_B2) <$> c_elems wide_B2 = [Elem 0 1 7%Z 0; Elem 3 1 3%Z 0; Elem 1 0 (-2)%Z 0]) /\
  (let _ := w16 2 in blockable3_wide wide_B2 3 /\ stored3 3 <$> c_elems wide_B2 = [Elem 0 1 7%Z 0; Elem 3 4 3%Z 0; Elem 1 0 (-2)%Z 0] /\
     blockable3_wide wide_B1 3 /\ stored3 3 <$> c_elems wide_B1 = [Elem 0 1 7%Z 0; Elem 0 0 3%Z 0; Elem 1 0 (-2)%Z 0]).
Proof.
  split; [apply exact_Z|].
  assert (Hb : forall n, blocking [0; n] 1 n). { intros n. unfold blocking. repeat split; try done. intros i Hi. replace i with 0 by lia. cbn. lia. }
  split; [|split]; cbv zeta.
  - split. { apply blockable_few. unfold c_nnz. cbn [c_rows c_cols c_elems wide_B1 length itW w16]. split; [done|]. split; [repeat constructor; cbn; lia|]. split; [apply Hb|]. split; [apply Hb|]. lia. }
    split. { unfold workers_ok, c_nnz. cbn. lia. }
    split. { right. split; [cbn; lia|]. cbn [sitW w16]. lia. }
    split. { intros [Hs _]. specialize (Hs 0 ltac:(lia)). cbn in Hs. lia. }
    cbn [c_elems wide_B1]. repeat apply Forall_cons_2; try apply Forall_nil_2; intros br bc Hbr Hbc _ _; replace br with 0 by lia; replace bc with 0 by lia; cbn; lia.
  - split. { apply blockable_few. unfold c_nnz. cbn [c_rows c_cols c_elems wide_B2 length itW w16]. split; [done|]. split; [repeat constructor; cbn; lia|]. split; [apply Hb|]. split; [apply Hb|]. lia. }
    split. { unfold workers_ok, c_nnz. cbn. lia. }
    split. { cbn [c_elems wide_B2]. intros Hf. apply Forall_inv_tail, Forall_inv in Hf. assert (HX : 3 - 0 < 3 /\ 4 - 0 < 3); [|lia]. apply (Hf 0 0); [lia|lia|unfold in_block; cbn; lia|unfold in_block; cbn; lia]. }
    split; by vm_compute.
  - split. { unfold blockable3_wide, c_nnz. cbn [c_rows c_cols c_elems wide_B2 length itW w16]. split; [done|]. split; [repeat constructor; cbn; lia|]. change (ceil_nb 4 3 * ceil_nb 5 3) with 4. lia. }
    split; [by vm_compute|]. split; [|by vm_compute].
    unfold blockable3_wide, c_nnz. cbn [c_rows c_cols c_elems wide_B1 length itW w16]. split; [done|]. split; [repeat constructor; cbn; lia|]. change (ceil_nb 4 3 * ceil_nb 5 3) with 4. lia.
Qed.
