(** CsrProof.v: proofs about Csr.v *)
From Verif Require Export Csr KernelsProof UtilsProof.

Section proofs.
  Context {T : Type} `{Scalar T} `{Widths}.
  Implicit Types (E : list (elem T)) (b : buf).

  (** the arrays the construction loops leave *)
  Lemma csr_build_spec conv E rows cols :
    Forall (fun e => row e < rows) E -> rows + 1 < itW -> length E < itW ->
    csr_build conv E rows cols =
      Ok (Csr rows cols (full (ptrs (row <$> E) rows)) (full ((fun e => conv (col e)) <$> E)) (full (val <$> E))).
  Proof.
    intros HE Hr Hn. apply wp_eq. unfold csr_build.
    assert (wadd rows 1 = S rows) as -> by (unfold wadd; rewrite wrap_small; lia).
    apply wp_bind. eapply wp_mono.
    { apply (wp_for_range (fun i '(ind, v, ptr) =>
        ind = part ((fun e => conv (col e)) <$> take i E) (length E) /\ v = part (val <$> take i E) (length E) /\
        ptr = full (counters (row <$> take i E) rows))); [lia| |].
      - rewrite <- !part_nil, counters_nil. done.
      - intros i [[ind v] ptr] Hi (-> & -> & ->).
        destruct (lookup_lt_is_Some_2 E i) as [e He]; [lia|]. rewrite (lget_some _ _ _ He).
        cbn [mbind outcome_bind].
        rewrite Forall_lookup in HE. pose proof (HE _ _ He) as Hre. cbv beta in Hre.
        assert (Hlt : length (take i E) = i) by (rewrite take_length; lia).
        pose proof (part_set ((fun e => conv (col e)) <$> take i E) (length E) (conv (col e))) as Hp1.
        rewrite fmap_length, Hlt in Hp1. rewrite Hp1 by lia. cbn [mbind outcome_bind].
        pose proof (part_set (val <$> take i E) (length E) (val e)) as Hp2.
        rewrite fmap_length, Hlt in Hp2. rewrite Hp2 by lia. cbn [mbind outcome_bind].
        assert (wadd (row e) 1 = row e + 1) as -> by (apply wrap_small; lia).
        rewrite incr_step by (rewrite ?fmap_length; lia). cbn [mbind outcome_bind wp].
        rewrite (take_S_r _ _ _ He), !fmap_app. done. }
    intros [[ind v] ptr] (-> & -> & ->). rewrite firstn_all.
    rewrite prefix_sum_spec by (rewrite fmap_length; lia). cbn [mbind outcome_bind].
    rewrite ptrs_get by lia. cbn [mbind outcome_bind].
    rewrite cntlt_all, fmap_length by (by apply Forall_fmap). rewrite Nat.eqb_refl. cbn [assert_ mbind outcome_bind wp].
    f_equal.
    - pose proof (part_full ((fun e => conv (col e)) <$> E)) as Hp. rewrite fmap_length in Hp. exact Hp.
    - pose proof (part_full (val <$> E)) as Hp. rewrite fmap_length in Hp. exact Hp.
  Qed.
  (** ... represent the rows *)
  Lemma csr_build_rep conv E rows :
    ksorted row E -> Forall (fun e => conv (col e) = col e) E ->
    csr_rep (full (ptrs (row <$> E) rows)) 0 (full ((fun e => conv (col e)) <$> E)) (full (val <$> E)) 0 rows
      (fun i => bfilter (in_row i) E).
  Proof.
    intros Hs Hc i Hi. exists (cntlt (row <$> E) i). cbn [Nat.add].
    rewrite !ptrs_get by lia. split; [done|]. split.
    - replace (i + 1) with (S i) by lia. rewrite cntlt_S, cnteq_fmap. done.
    - intros k e Hk.
      assert (He : E !! (cntlt (row <$> E) i + k) = Some e).
      { pose proof (lookup_lt_Some _ _ _ Hk) as Hl.
        pose proof (sorted_slice row E i Hs) as Hsl. change (has row i) with (in_row (T := T) i) in Hsl.
        rewrite <- Hsl in Hk. rewrite cntlt_S, cnteq_fmap in Hk. change (has row i) with (in_row (T := T) i) in Hk.
        rewrite slice_lookup in Hk by lia. done. }
      rewrite !aget_full. rewrite Forall_lookup in Hc. pose proof (Hc _ _ He) as Hce. cbv beta in Hce.
      split; (apply lget_some; rewrite list_lookup_fmap, He; cbn [fmap option_fmap option_map]).
      + by rewrite Hce.
      + done.
  Qed.
  Lemma rows_cols_ok E rows cols : in_range rows cols E -> cols_ok rows cols (fun i => bfilter (in_row i) E).
  Proof.
    intros HE i _. unfold in_range in HE. rewrite Forall_forall in HE. apply Forall_forall. intros e He.
    apply elem_of_list_In, filter_In in He as [He _]. apply elem_of_list_In in He. by apply HE.
  Qed.
  Lemma in_range_rows E rows cols : in_range rows cols E -> Forall (fun e => row e < rows) E.
  Proof. intros HE. eapply Forall_impl; [exact HE|]. by intros e [? _]. Qed.
  Lemma in_range_perm E E' rows cols : E ≡ₚ E' -> in_range rows cols E -> in_range rows cols E'.
  Proof. intros Hp. unfold in_range. by rewrite Hp. Qed.
  (** row-major order is the order by column inside each row *)
  Lemma ksorted_isort_row E : ksorted row (isort compare_row E).
  Proof.
    unfold ksorted. pose proof (isort_sorted _ swo_compare_row E) as Hs.
    induction Hs as [|a l Hs IH Hf]; constructor; [done|]. eapply Forall_impl; [exact Hf|].
    intros e He. unfold cle, compare_row in He. rewrite orb_false_iff, Nat.ltb_ge in He. lia.
  Qed.
  Lemma row_filter_isort E i : bfilter (in_row i) (isort compare_row E) = bfilter (in_row i) (isort (bykey col) E).
  Proof.
    rewrite (filter_isort _ swo_compare_row), (filter_isort _ (swo_bykey col)). apply isort_ext.
    intros e1 e2 H1 H2. apply filter_In in H1 as [_ H1], H2 as [_ H2].
    unfold in_row in H1, H2. apply Nat.eqb_eq in H1, H2. unfold compare_row, bykey. rewrite H1, H2.
    rewrite Nat.ltb_irrefl, Nat.eqb_refl. done.
  Qed.
  Lemma Coo_to_Csr_spec (B : coo T) :
    in_range (c_rows B) (c_cols B) (c_elems B) -> c_rows B + 1 < itW -> c_nnz B < itW ->
    let E := isort compare_row (c_elems B) in
    Coo_to_Csr B = Ok (Csr (c_rows B) (c_cols B) (full (ptrs (row <$> E) (c_rows B))) (full (col <$> E)) (full (val <$> E)),
                       Coo (c_rows B) (c_cols B) E).
  Proof.
    intros HE Hr Hn E. unfold Coo_to_Csr. rewrite sort_triplets_spec. cbn [mbind outcome_bind]. fold E.
    assert (Hp : E ≡ₚ c_elems B) by apply isort_perm.
    rewrite csr_build_spec; [done| |done|].
    - rewrite Hp. by eapply in_range_rows.
    - unfold E. rewrite isort_length. done.
  Qed.

  Lemma spmv_by_column_row E x i y :
    fold_left (accum x) (bfilter (in_row i) (isort compare_row E)) y = row_acc (isort (bykey col) E) x i y.
  Proof. unfold row_acc. by rewrite row_filter_isort. Qed.
  Lemma imap_ext_lt {A B} (f g : nat -> A -> B) (l : list A) :
    (forall i a, i < length l -> f i a = g i a) -> imap f l = imap g l.
  Proof.
    intros Hfg. apply list_eq. intros i. rewrite !list_lookup_imap. destruct (l !! i) as [a|] eqn:Ha; [|done].
    simpl. f_equal. apply Hfg. by eapply lookup_lt_Some.
  Qed.

  (** the four kernels on the matrix built from B *)
  Section spmv.
    Context (B : coo T) (A : csr T) (B' : coo T) (x y : list T) (b : buf).
    Context (HE : in_range (c_rows B) (c_cols B) (c_elems B)) (Hr : c_rows B + 1 < itW) (Hn : c_nnz B < itW).
    Context (HA : Coo_to_Csr B = Ok (A, B')) (Hx : c_cols B <= length x) (Hy : length y = c_rows B).
    Lemma csr_facts : csr_rows A = c_rows B /\
      csr_rep (csr_ptr A) 0 (csr_ind A) (csr_vals A) 0 (c_rows B) (fun i => bfilter (in_row i) (isort compare_row (c_elems B))) /\
      cols_ok (c_rows B) (c_cols B) (fun i => bfilter (in_row i) (isort compare_row (c_elems B))) /\
      (exists z, aget (csr_ptr A) 0 = Ok z).
    Proof.
      rewrite Coo_to_Csr_spec in HA by done. injection HA as <- _.
      split; [done|]. cbn [csr_ptr csr_ind csr_vals]. split.
      - apply (csr_build_rep (fun c => c)); [apply ksorted_isort_row|]. by apply Forall_true.
      - split; [apply rows_cols_ok; eapply in_range_perm; [symmetry; apply isort_perm|done]|].
        eexists. apply ptrs_get. lia.
    Qed.
    Lemma csr_finish p (π : buf -> Prop) : ~ π b ->
      performs p b 0 (c_rows B) π (fun k y => fold_left (accum (drop 0 x)) (bfilter (in_row k) (isort compare_row (c_elems B))) y) ->
      all_schedules p (heap_of b y) tt (heap_of b (spmv_by_column (c_elems B) x y)).
    Proof.
      intros Hpi Hp. rewrite <- Hy in Hp. pose proof (performs_vector _ b y _ _ Hp Hpi) as Hall.
      rewrite drop_0 in Hall. erewrite imap_ext_lt in Hall; [exact Hall|].
      intros i a _. apply spmv_by_column_row.
    Qed.
    Lemma csr_spmv_spec : all_schedules (csr_spmv A x b) (heap_of b y) tt (heap_of b (spmv_by_column (c_elems B) x y)).
    Proof.
      destruct csr_facts as (Hrows & Hrep & Hc & _). eapply csr_finish; [|unfold csr_spmv; rewrite Hrows; eapply performs_spmv_csr; eauto].
      by intros [].
    Qed.
    Lemma csr_spmv_serial_spec : all_schedules (csr_spmv_serial A x b) (heap_of b y) tt (heap_of b (spmv_by_column (c_elems B) x y)).
    Proof.
      destruct csr_facts as (Hrows & Hrep & Hc & Hz).
      eapply (csr_finish _ (fun _ => False)); [|unfold csr_spmv_serial; rewrite Hrows; eapply performs_spmv_csr_serial; eauto].
      by intros [].
    Qed.
    Lemma csr2_spmv_spec : all_schedules (csr2_spmv A x b) (heap_of b y) tt (heap_of b (spmv_by_column (c_elems B) x y)).
    Proof.
      destruct csr_facts as (Hrows & Hrep & Hc & _). eapply csr_finish; [|unfold csr2_spmv; rewrite Hrows; eapply performs_spmv_csr2; eauto].
      by intros [].
    Qed.
    Lemma csr2_spmv_serial_spec : all_schedules (csr2_spmv_serial A x b) (heap_of b y) tt (heap_of b (spmv_by_column (c_elems B) x y)).
    Proof.
      destruct csr_facts as (Hrows & Hrep & Hc & Hz).
      eapply (csr_finish _ (fun _ => False)); [|unfold csr2_spmv_serial; rewrite Hrows; eapply performs_spmv_csr2_serial; eauto].
      by intros [].
    Qed.
  End spmv.
End proofs.
