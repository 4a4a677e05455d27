(** Properties_Outside.v: C96, matrices with an element outside the declared dimensions given to
    the blocked formats.  The readers do not compare an index with the dimensions (C91), and
    neither does the search for the block of an index: an index beyond the end is put into the
    last block.  The constructors of Csbr, Csbr2, Cgbr and Cgbr2 then assert that every element
    lies in its block, so that such a matrix is never built. *)
From Verif Require Import SimpleProof CsrProof DenseProof Cgbr2Proof OutsideProof Properties_BlockIo Properties_Cgbr Properties_Range Properties_Blocked Properties_Reuse Properties_Drivers.
From Coq Require Import ZifyNat ZifyBool.

(** everything [blockable] (Properties_Blocked.v) asks for except that the elements lie inside *)
Definition blockable_but_range `{Widths} {T} (B : coo T) (roff : list nat) (nbr : nat) (coff : list nat) (nbc : nat) : Prop :=
  blocking roff nbr (c_rows B) /\ blocking coff nbc (c_cols B) /\
  0 < nbr <= c_rows B /\ 0 < nbc <= c_cols B /\ nbr * nbc < itW /\
  c_rows B + 1 < itW /\ c_cols B < itW /\ c_nnz B < itW.

Section C96.
  Context {T : Type} `{Scalar T} `{Widths}.
  Implicit Types (B : coo T) (E L : list (elem T)) (x y : list T) (b : buf) (roff coff : list nat).

  Lemma outside_nonempty B : ~ in_range (c_rows B) (c_cols B) (c_elems B) -> c_elems B <> [].
  Proof. intros Hn He. apply Hn. rewrite He. constructor. Qed.

  Theorem C96_csbr B roff nbr coff nbc workers : blockable_but_range B roff nbr coff nbc ->
    ~ in_range (c_rows B) (c_cols B) (c_elems B) ->
    Coo_to_Csbr workers B (full roff) nbr (full coff) nbc = Abort.
  Proof.
    intros (Hr & Hc & H1 & H2 & H3 & H4 & H5 & H6) Hn. pose proof (outside_nonempty B Hn) as Hne. destruct B as [rows cols E].
    unfold c_nnz in *. cbn [c_rows c_cols c_elems] in *. eapply csbr_outside; first [eassumption|lia].
  Qed.
  Theorem C96_csbr2 B roff nbr coff nbc : blockable_but_range B roff nbr coff nbc ->
    ~ in_range (c_rows B) (c_cols B) (c_elems B) ->
    Coo_to_Csbr2 B (full roff) nbr (full coff) nbc = Abort.
  Proof.
    intros (Hr & Hc & H1 & H2 & H3 & H4 & H5 & H6) Hn. pose proof (outside_nonempty B Hn) as Hne. destruct B as [rows cols E].
    unfold c_nnz in *. cbn [c_rows c_cols c_elems] in *. eapply csbr2_outside; first [eassumption|lia].
  Qed.

  (** Cgbr and Cgbr2 make a block, whatever its kind and size, from elements that lie inside it *)
  Lemma make_total (choose : nat -> nat -> nat -> kind) L rs cs : short_type -> in_range rs cs L -> L <> [] -> rs + 1 < itW -> cs < itW -> length L < itW ->
    (choose rs cs (length L) = KDense -> rs * cs < itW) ->
    make_block choose L rs cs = Abort \/
    exists M ty L', make_block choose L rs cs = Ok (M, ty, L') /\ length L' = length L /\ ty < MATRIX_TYPE_NUM.
  Proof.
    intros Hst HL Hne Hrs Hcs Hn Hd. unfold make_block. destruct (choose rs cs (length L)) eqn:Hk.
    - destruct Hst as [Hst|[S1 S2]].
      + right. rewrite Coo_to_BlockCoo_ok; [|by left|eapply Forall_impl; [exact HL|]; cbn; lia]. cbn [mbind outcome_bind].
        eexists _, _, _. split; [reflexivity|]. split; [apply isort_length|]. unfold BLOCK_COO, MATRIX_TYPE_NUM. lia.
      + destruct (Coo_to_BlockCoo_spec L S1 S2) as [[_ Hok]|[_ ->]]; [|by left]. cbv zeta in Hok. rewrite Hok. cbn [mbind outcome_bind].
        right. eexists _, _, _. split; [reflexivity|]. split; [apply isort_length|]. unfold BLOCK_COO, MATRIX_TYPE_NUM. lia.
    - right. unfold Coo_to_BlockCsr. rewrite csr_build_spec; [|eapply Forall_impl; [exact HL|]; cbn; tauto|done|done]. cbn [mbind outcome_bind].
      eexists _, _, _. split; [reflexivity|]. split; [done|]. unfold BLOCK_CSR, MATRIX_TYPE_NUM. lia.
    - right. assert (0 < cs). { destruct L as [|e L]; [done|]. unfold in_range in HL. apply Forall_inv in HL. lia. }
      rewrite Coo_to_Dense_spec by auto. cbn [mbind outcome_bind].
      eexists _, _, _. split; [reflexivity|]. split; [done|]. unfold BLOCK_DENSE, MATRIX_TYPE_NUM. lia.
  Qed.
  Lemma make2_total (choose : list (elem T) -> nat -> nat -> kind2) L rs cs : in_range rs cs L -> rs + 1 < itW -> length L < itW ->
    (choose L rs cs = K2Dense -> rs * cs < itW) ->
    exists M ty L', make_block2 choose L rs cs = Ok (M, ty, L') /\ length L' = length L /\ ty < MATRIX_TYPE_NUM.
  Proof.
    intros HL Hrs Hn Hd. unfold make_block2. destruct (choose L rs cs) eqn:Hk.
    - unfold new_Coo. rewrite sort_triplets_morton_spec. cbn [mbind outcome_bind]. rewrite copy_points_spec. cbn [mbind outcome_bind].
      eexists _, _, _. split; [reflexivity|]. split; [apply isort_length|]. unfold BLOCK_COO, MATRIX_TYPE_NUM. lia.
    - unfold Coo_to_BlockCsr. rewrite csr_build_spec; [|eapply Forall_impl; [exact HL|]; cbn; tauto|done|done]. cbn [mbind outcome_bind].
      eexists _, _, _. split; [reflexivity|]. split; [done|]. unfold BLOCK_CSR, MATRIX_TYPE_NUM. lia.
    - unfold Coo_to_BlockCsr. rewrite csr_build_spec; [|eapply Forall_impl; [exact HL|]; cbn; tauto|done|done]. cbn [mbind outcome_bind].
      eexists _, _, _. split; [reflexivity|]. split; [done|]. unfold BLOCK_CSR_PAR, MATRIX_TYPE_NUM. lia.
    - rewrite dense_fill_spec by auto. cbn [mbind outcome_bind].
      eexists _, _, _. split; [reflexivity|]. split; [done|]. unfold BLOCK_DENSE, MATRIX_TYPE_NUM. lia.
  Qed.
  Lemma outside_local E roff nbr rows coff nbc cols id : blocking roff nbr rows -> blocking coff nbc cols -> 0 < nbr -> 0 < nbc ->
    nbr * nbc < itW -> rows + 1 < itW -> cols < itW -> nbr <= rows -> nbc <= cols -> length E < itW ->
    id ∈ bids roff nbr coff nbc E ->
    id / nbc < nbr /\ id mod nbc < nbc /\ local roff nbr coff nbc E id <> [] /\ length (local roff nbr coff nbc E id) < itW /\
    rsz roff nbc id = block_rows roff (id / nbc) /\ csz coff nbc id = block_rows coff (id mod nbc) /\ rsz roff nbc id + 1 < itW /\ csz coff nbc id < itW.
  Proof.
    intros Hr Hc P1 P2 Hids Hrows Hcols Hnr Hnc Hn Hid. pose proof Hid as (e & He & Hb)%bids_elem.
    assert (Hab : blk e < nbr * nbc /\ blk e / nbc < nbr /\ blk e mod nbc < nbc) by (eapply any_blk; eassumption).
    destruct Hab as (_ & B2 & B3). rewrite Hb in B2, B3.
    assert (Hag : block_geometry (full roff) (full coff) nbc id = Ok (id / nbc, id mod nbc, geo roff coff nbc id) /\
      ro roff nbc id + rsz roff nbc id <= rows /\ co coff nbc id + csz coff nbc id <= cols) by (eapply any_geometry; eassumption).
    destruct Hag as (_ & G1 & G2). split; [done|]. split; [done|]. split.
    { intros Hnil. assert (e ∈ blocks_at roff nbr coff nbc E id) as Hin.
      { unfold blocks_at, group. apply elem_of_list_In, filter_In. split; [by apply elem_of_list_In|]. unfold has. by rewrite Hb, Nat.eqb_refl. }
      unfold local in Hnil. apply fmap_nil_inv in Hnil. rewrite Hnil in Hin. by apply elem_of_nil in Hin. }
    split; [|split; [done|]; split; [done|]; lia].
    unfold local. rewrite fmap_length. pose proof (group_length blk id (bsorted roff nbr coff nbc E)) as Hgl. rewrite bsorted_length in Hgl. unfold blocks_at. lia.
  Qed.

  (** a block that is made dense has a size the index type can hold *)
  Theorem C96_cgbr (choose : nat -> nat -> nat -> kind) bal B roff nbr coff nbc workers : blockable_but_range B roff nbr coff nbc -> short_type ->
    (forall br bc n, br < nbr -> bc < nbc -> choose (block_rows roff br) (block_rows coff bc) n = KDense -> block_rows roff br * block_rows coff bc < itW) ->
    ~ in_range (c_rows B) (c_cols B) (c_elems B) ->
    Coo_to_Cgbr choose bal workers B (full roff) nbr (full coff) nbc = Abort.
  Proof.
    intros (Hr & Hc & H1 & H2 & H3 & H4 & H5 & H6) Hst Hd Hn. pose proof (outside_nonempty B Hn) as Hne. destruct B as [rows cols E].
    unfold c_nnz in *. cbn [c_rows c_cols c_elems] in *. unfold Coo_to_Cgbr. cbn [c_rows c_cols c_elems].
    erewrite (prelude roff nbr rows coff nbc cols E); [|first [eassumption|lia]..].
    rewrite (fill_outside roff nbr rows coff nbc cols E); [done|first [eassumption|lia]..| |done].
    intros id Hid Hin.
    destruct (outside_local E roff nbr rows coff nbc cols id) as (F1 & F2 & F3 & F4 & F5 & F6 & F7 & F8); [first [eassumption|lia]..|].
    apply make_total; try done. rewrite F5, F6. intros Hk. by eapply Hd.
  Qed.
  Theorem C96_cgbr2 (choose : list (elem T) -> nat -> nat -> kind2) B roff nbr coff nbc workers : blockable_but_range B roff nbr coff nbc ->
    (forall br bc L, br < nbr -> bc < nbc -> choose L (block_rows roff br) (block_rows coff bc) = K2Dense -> block_rows roff br * block_rows coff bc < itW) ->
    ~ in_range (c_rows B) (c_cols B) (c_elems B) ->
    Coo_to_Cgbr2 (make_block2 choose) workers B (full roff) nbr (full coff) nbc = Abort.
  Proof.
    intros (Hr & Hc & H1 & H2 & H3 & H4 & H5 & H6) Hd Hn. pose proof (outside_nonempty B Hn) as Hne. destruct B as [rows cols E].
    unfold c_nnz in *. cbn [c_rows c_cols c_elems] in *. unfold Coo_to_Cgbr2. cbn [c_rows c_cols c_elems].
    rewrite (check_blocking_ok roff nbr rows coff nbc cols Hr Hc) by lia. cbn [mbind outcome_bind].
    rewrite (calculate_block_id_any E roff nbr coff nbc rows cols) by first [done|lia]. cbn [mbind outcome_bind].
    rewrite sort_elements_blocks_spec. cbn [mbind outcome_bind]. fold (bsorted roff nbr coff nbc E).
    rewrite count_bids by done. cbn [mbind outcome_bind].
    rewrite (fill_outside roff nbr rows coff nbc cols E); [done|first [eassumption|lia]..| |done].
    intros id Hid Hin.
    destruct (outside_local E roff nbr rows coff nbc cols id) as (F1 & F2 & F3 & F4 & F5 & F6 & F7 & F8); [first [eassumption|lia]..|].
    right. apply make2_total; try done. rewrite F5, F6. intros Hk. by eapply Hd.
  Qed.

  (** the drivers' constructors with a constant block size *)
  Lemma const_but_range B br_size bc_size : 0 < br_size -> 0 < bc_size -> 0 < c_rows B -> 0 < c_cols B ->
    c_rows B + 2 < itW -> c_cols B + 2 < itW -> Nat.max 1 (c_rows B / br_size) * Nat.max 1 (c_cols B / bc_size) < itW -> c_nnz B < itW ->
    blockable_but_range B (const_off (c_rows B) br_size) (const_nb (c_rows B) br_size) (const_off (c_cols B) bc_size) (const_nb (c_cols B) bc_size).
  Proof.
    intros S1 S2 P1 P2 H1 H2 H3 H4. unfold blockable_but_range. rewrite !const_nb_max.
    split; [rewrite <- const_nb_max; by apply const_off_blocking|]. split; [rewrite <- const_nb_max; by apply const_off_blocking|].
    assert (forall n s, 0 < s -> 0 < n -> 0 < Nat.max 1 (n / s) <= n) as Hmax.
    { intros n s Hs Hn. split; [lia|]. assert (n / s <= n) by (apply Nat.div_le_upper_bound; nia). lia. }
    split; [by apply Hmax|]. split; [by apply Hmax|]. lia.
  Qed.
  Theorem C96_csbr_const B br_size bc_size workers : 0 < br_size -> 0 < bc_size -> 0 < c_rows B -> 0 < c_cols B ->
    c_rows B + 2 < itW -> c_cols B + 2 < itW -> Nat.max 1 (c_rows B / br_size) * Nat.max 1 (c_cols B / bc_size) < itW -> c_nnz B < itW ->
    ~ in_range (c_rows B) (c_cols B) (c_elems B) ->
    Coo_to_Csbr_const workers B br_size bc_size = Abort.
  Proof.
    intros S1 S2 P1 P2 H1 H2 H3 H4 Hn. unfold Coo_to_Csbr_const. rewrite !const_offsets_spec by done. cbn [mbind outcome_bind].
    apply C96_csbr; [by apply const_but_range|done].
  Qed.
  Theorem C96_csbr2_const B br_size bc_size : 0 < br_size -> 0 < bc_size -> 0 < c_rows B -> 0 < c_cols B ->
    c_rows B + 2 < itW -> c_cols B + 2 < itW -> Nat.max 1 (c_rows B / br_size) * Nat.max 1 (c_cols B / bc_size) < itW -> c_nnz B < itW ->
    ~ in_range (c_rows B) (c_cols B) (c_elems B) ->
    Coo_to_Csbr2_const B br_size bc_size = Abort.
  Proof.
    intros S1 S2 P1 P2 H1 H2 H3 H4 Hn. unfold Coo_to_Csbr2_const. rewrite !const_offsets_spec by done. cbn [mbind outcome_bind].
    apply C96_csbr2; [by apply const_but_range|done].
  Qed.
  Lemma const_small_but_range B br_size bc_size : 0 < br_size -> 0 < bc_size -> 2 * br_size * (2 * bc_size) <= itW ->
    forall br bc, br < const_nb (c_rows B) br_size -> bc < const_nb (c_cols B) bc_size ->
    block_rows (const_off (c_rows B) br_size) br * block_rows (const_off (c_cols B) bc_size) bc < itW.
  Proof.
    intros S1 S2 Hs br bc Hr Hc. pose proof (const_extent _ _ _ S1 Hr). pose proof (const_extent _ _ _ S2 Hc).
    eapply Nat.lt_le_trans; [|exact Hs]. apply Nat.mul_lt_mono; done.
  Qed.
  Theorem C96_cgbr_const (choose : nat -> nat -> nat -> kind) bal B br_size bc_size workers : 0 < br_size -> 0 < bc_size -> 0 < c_rows B -> 0 < c_cols B ->
    c_rows B + 2 < itW -> c_cols B + 2 < itW -> Nat.max 1 (c_rows B / br_size) * Nat.max 1 (c_cols B / bc_size) < itW -> c_nnz B < itW ->
    short_type -> 2 * br_size * (2 * bc_size) <= itW ->
    ~ in_range (c_rows B) (c_cols B) (c_elems B) ->
    Coo_to_Cgbr_const choose bal workers B br_size bc_size = Abort.
  Proof.
    intros S1 S2 P1 P2 H1 H2 H3 H4 Hst Hs Hn. unfold Coo_to_Cgbr_const. rewrite !const_offsets_spec by done. cbn [mbind outcome_bind].
    apply C96_cgbr; [by apply const_but_range|done| |done]. intros br bc n Hr Hc _. by apply const_small_but_range.
  Qed.
  Theorem C96_cgbr2_const (choose : list (elem T) -> nat -> nat -> kind2) B br_size bc_size workers : 0 < br_size -> 0 < bc_size -> 0 < c_rows B -> 0 < c_cols B ->
    c_rows B + 2 < itW -> c_cols B + 2 < itW -> Nat.max 1 (c_rows B / br_size) * Nat.max 1 (c_cols B / bc_size) < itW -> c_nnz B < itW ->
    2 * br_size * (2 * bc_size) <= itW ->
    ~ in_range (c_rows B) (c_cols B) (c_elems B) ->
    Coo_to_Cgbr2_const (make_block2 choose) workers B br_size bc_size = Abort.
  Proof.
    intros S1 S2 P1 P2 H1 H2 H3 H4 Hs Hn. unfold Coo_to_Cgbr2_const. rewrite !const_offsets_spec by done. cbn [mbind outcome_bind].
    apply C96_cgbr2; [by apply const_but_range| |done]. intros br bc L Hr Hc _. by apply const_small_but_range.
  Qed.
End C96.

(** ** the blocked drivers on a file that names an element outside its own dimensions: read
    without complaint (C91), then the program aborts before any benchmark *)
Section drivers.
  Context {T : Type} `{Scalar T} `{Widths} (RT : repr T) (k : nat) (scan_g : bytes -> option T * bytes).
  Context (iterations : nat) (rand : nat -> nat -> T) (laps : nat -> nat -> Z) (workers : nat) (logbeta : nat -> nat -> N) (val_size : N).
  Context (choose : nat -> nat -> nat -> kind) (bal : nat -> nat -> list (list nat) -> bool) (choose2 : list (elem T) -> nat -> nat -> kind2) (balanced : bool).
  Implicit Types (F : fs) (B : coo T) (name : bytes) (args : list bytes).
  Notation driver := (blocked_driver RT k scan_g iterations rand laps workers logbeta val_size).
  Lemma blank_outside B : ~ in_range (c_rows B) (c_cols B) (c_elems B) -> ~ in_range (c_rows (blank B)) (c_cols (blank B)) (c_elems (blank B)).
  Proof. unfold in_range, blank. cbn [c_rows c_cols c_elems]. by rewrite Forall_fmap. Qed.
  Theorem C96_drivers name args F B s : reads RT k scan_g F name B -> args = [] \/ length args = 2 ->
    picks workers logbeta val_size (c_rows B) (c_cols B) s -> 0 < s -> 0 < c_rows B -> 0 < c_cols B ->
    c_rows B + 2 < itW -> c_cols B + 2 < itW -> Nat.max 1 (c_rows B / s) * Nat.max 1 (c_cols B / s) < itW -> c_nnz B < itW ->
    ~ in_range (c_rows B) (c_cols B) (c_elems B) ->
    driver (to_csbr workers) (to_csbr_off workers) (name :: args) F = Fail FAbort /\
    driver to_csbr2 to_csbr2_off (name :: args) F = Fail FAbort /\
    (short_able s ->
     driver (to_cgbr workers choose bal) (to_cgbr_off workers choose bal) (name :: args) F = Fail FAbort /\
     driver (to_cgbr2 workers choose2 balanced) (to_cgbr2_off workers choose2 balanced) (name :: args) F = Fail FAbort).
  Proof.
    intros HR Ha Hp Hs P1 P2 H1 H2 H3 H4 Hn. apply blank_outside in Hn. rewrite <- (blank_nnz B) in H4.
    assert (Hstep : forall convert off, convert (blank B) s s = Abort -> driver convert off (name :: args) F = Fail FAbort).
    { intros convert off Hc. rewrite (blocked_driver_read RT k scan_g iterations rand laps workers logbeta val_size convert off name args F B HR Ha).
      rewrite Hp. cbn [mbind outcome_bind]. rewrite Hc. done. }
    split; [|split].
    - apply Hstep. unfold to_csbr. by rewrite C96_csbr_const.
    - apply Hstep. unfold to_csbr2. by rewrite C96_csbr2_const.
    - intros (_ & S2 & S3). split; apply Hstep.
      + unfold to_cgbr. by rewrite C96_cgbr_const.
      + unfold to_cgbr2. by rewrite C96_cgbr2_const.
  Qed.
End drivers.

(** ** concrete cases *)
(** 4 rows, 5 columns, an element in column 5 *)
Definition ex_beyond : coo Z := Coo 4 5 [Elem 1 1 3%Z 0; Elem 2 5 4%Z 0].
Lemma ex_beyond_outside : ~ in_range (c_rows ex_beyond) (c_cols ex_beyond) (c_elems ex_beyond).
Proof. unfold in_range, ex_beyond. cbn [c_rows c_cols c_elems]. intros HF. apply Forall_inv_tail, Forall_inv in HF. cbn in HF. lia. Qed.
Lemma ex_beyond_blocks : @blockable_but_range ex_W16 Z ex_beyond [0; 2; 4] 2 [0; 3; 5] 2.
Proof.
  destruct ex_blockable16 as [(_ & _ & B1 & B2 & _) _]. unfold blockable_but_range. split; [exact B1|]. split; [exact B2|].
  unfold c_nnz, ex_beyond. cbn [c_rows c_cols c_elems length]. cbn [itW ex_W16]. lia.
Qed.
Example C96_ex : @Coo_to_Csbr Z _ ex_W16 4 ex_beyond (full [0; 2; 4]) 2 (full [0; 3; 5]) 2 = Abort /\
  Coo_to_Csbr2 (H0 := ex_W16) ex_beyond (full [0; 2; 4]) 2 (full [0; 3; 5]) 2 = Abort /\
  @Coo_to_Cgbr Z _ ex_W16 (fun _ _ _ => KCsr) (fun _ _ _ => true) 4 ex_beyond (full [0; 2; 4]) 2 (full [0; 3; 5]) 2 = Abort /\
  @Coo_to_Cgbr2 Z _ ex_W16 (make_block2 (H0 := ex_W16) (fun _ _ _ => K2Dense)) 4 ex_beyond (full [0; 2; 4]) 2 (full [0; 3; 5]) 2 = Abort.
Proof.
  pose proof ex_beyond_blocks as HB. pose proof ex_beyond_outside as Hn. split; [|split; [|split]].
  - by apply (C96_csbr (H0 := ex_W16)).
  - by apply (C96_csbr2 (H0 := ex_W16)).
  - apply (C96_cgbr (H0 := ex_W16)); [exact HB| |by intros|exact Hn]. right. cbn [sitW itW ex_W16]. lia.
  - apply (C96_cgbr2 (H0 := ex_W16)); [exact HB| |exact Hn]. intros br bc L Hr Hc _. cbn [itW ex_W16].
    assert (block_rows [0; 2; 4] br <= 2) by (destruct br as [|[|?]]; cbn; lia).
    assert (block_rows [0; 3; 5] bc <= 3) by (destruct bc as [|[|?]]; cbn; lia). nia.
Qed.
(** the driver of C80_C83_ex on a 5 x 5 file with an element in row 5 *)
Definition ex_D_beyond : coo Z := Coo 5 5 [Elem 3 0 5 0; Elem 5 2 2 0]%Z.
Definition ex_fs96 : fs := {[str "m.bin" := write_bin_COO ex_RZ 1 ex_D_beyond]}.
Example C96_drivers_ex :
  @reads Z ex_W16 ex_RZ 1 ex_scan ex_fs96 (str "m.bin") ex_D_beyond /\
  @blocked_driver Z _ ex_W16 ex_RZ 1 ex_scan 3 (fun _ i => Z.of_nat i) ex_laps 1 (fun _ _ => 1%N) 4
    (@to_csbr2 Z _ ex_W16) (@to_csbr2_off Z _ ex_W16) [str "m.bin"] ex_fs96 = Fail FAbort.
Proof.
  assert (HR : @reads Z ex_W16 ex_RZ 1 ex_scan ex_fs96 (str "m.bin") ex_D_beyond).
  { apply C80_reads_bin; [split; [lia|done]|exact ex_RZ_storable| |by exists (str "m")|done]. vm_compute; repeat split; try lia; repeat constructor; lia. }
  split; [exact HR|].
  eapply (fun H => proj1 (proj2 H)), (@C96_drivers Z _ ex_W16 ex_RZ 1 ex_scan 3 (fun _ i => Z.of_nat i) ex_laps 1 (fun _ _ => 1%N) 4%N
    (fun _ _ _ => KCoo) (fun _ _ _ => true) (fun _ _ _ => K2Coo) true (str "m.bin") [] ex_fs96 ex_D_beyond 2 HR); [by left|by vm_compute|lia|..].
  all: unfold c_nnz, ex_D_beyond; cbn [c_rows c_cols c_elems length itW ex_W16]; try lia.
  - change (Nat.max 1 (5 / 2) * Nat.max 1 (5 / 2)) with 4. lia.
  - unfold in_range. intros HF. apply Forall_inv_tail, Forall_inv in HF. cbn in HF. lia.
Qed.
