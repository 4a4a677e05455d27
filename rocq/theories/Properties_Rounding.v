(** Properties_Rounding.v: C88, the products with values that round.
    [rounds_within den finite u eta M]: the value type is one of rounded numbers (Rounding.v);
    [exact_row den E x i yi]: the exact (y + A x)[i]; [magnitude den E x i yi]: (|y| + |A| |x|)[i];
    [within .. n m .. v]: v is finite and differs from the exact row by at most
    ((1+u)^n - 1) * magnitude + (1+u)^n * m * eta, whenever (1+u)^n * (magnitude + m * eta) is at
    most M. *)
From Verif Require Import RoundingProof Properties_Utils Properties_Simple Properties_Blocked Properties_Reuse Properties_Cgbr Choice Properties_Choice.
From Coq Require Import QArith Qabs Qpower Lqa.
Local Open Scope nat_scope.

Section C88.
  Context {T : Type} `{Scalar T} `{Widths} (den : T -> Q) (finite : T -> Prop) (u eta M : Q).
  Implicit Types (B : coo T) (E : list (elem T)) (x y : list T) (b : buf) (roff coff : list nat).
  (** row i of y' is row i of y + A x up to n i roundings and m i underflows *)
  Definition accurate (n m : nat -> nat) E x y y' : Prop :=
    length y' = length y /\
    forall i yi, y !! i = Some yi -> exists v, y' !! i = Some v /\ within den finite u eta M (n i) (m i) E x i yi v.
  Definition finite_data B x y : Prop := finite_matrix finite (c_elems B) /\ finite_vector finite x /\ finite_vector finite y.
  (** row i of the matrix has [row_size E i] elements *)
  Notation row_roundings E := (fun i => row_size E i + 1).
  Notation row_products E := (fun i => row_size E i).

  Lemma in_order_accurate E E' x y : rounds_within den finite u eta M -> E' ≡ₚ E -> finite_matrix finite E -> finite_vector finite x -> finite_vector finite y ->
    accurate (row_roundings E) (row_products E) E x y (spmv_in_order E' x y).
  Proof.
    intros HR Hp HE Hx Hy. split; [unfold spmv_in_order; apply imap_length|]. intros i yi Hi. eexists. split.
    - unfold spmv_in_order. rewrite list_lookup_imap, Hi. reflexivity.
    - apply (row_acc_within den finite u eta M HR); try done. unfold finite_vector in Hy. rewrite Forall_lookup in Hy. by eapply Hy.
  Qed.
  Lemma by_column_accurate E x y : rounds_within den finite u eta M -> finite_matrix finite E -> finite_vector finite x -> finite_vector finite y ->
    accurate (row_roundings E) (row_products E) E x y (spmv_by_column E x y).
  Proof. intros HR HE Hx Hy. apply in_order_accurate; try done. apply isort_perm. Qed.

  Theorem C88_coo B x y b : rounds_within den finite u eta M -> finite_data B x y ->
    in_range (c_rows B) (c_cols B) (c_elems B) -> c_cols B <= length x -> length y = c_rows B ->
    exists y', all_schedules (coo_spmv B x b) (heap_of b y) tt (heap_of b y') /\
      accurate (row_roundings (c_elems B)) (row_products (c_elems B)) (c_elems B) x y y'.
  Proof. intros HR (F1 & F2 & F3) HB Hx Hy. eexists. split; [by apply C15_coo_spmv|]. by apply in_order_accurate. Qed.
  Theorem C88_csr B x y b : rounds_within den finite u eta M -> finite_data B x y ->
    in_range (c_rows B) (c_cols B) (c_elems B) -> c_rows B + 1 < itW -> c_nnz B < itW -> c_cols B <= length x -> length y = c_rows B ->
    exists A B' y', Coo_to_Csr B = Ok (A, B') /\
      all_schedules (csr_spmv A x b) (heap_of b y) tt (heap_of b y') /\ all_schedules (csr_spmv_serial A x b) (heap_of b y) tt (heap_of b y') /\
      all_schedules (csr2_spmv A x b) (heap_of b y) tt (heap_of b y') /\ all_schedules (csr2_spmv_serial A x b) (heap_of b y) tt (heap_of b y') /\
      accurate (row_roundings (c_elems B)) (row_products (c_elems B)) (c_elems B) x y y'.
  Proof.
    intros HR (F1 & F2 & F3) HB Hr Hn Hx Hy. destruct (C19_csr_kernels_agree B x y b HB Hr Hn Hx Hy) as (A & B' & HA & K1 & K2 & K3 & K4).
    exists A, B', (spmv_by_column (c_elems B) x y). do 5 (split; [done|]). by apply by_column_accurate.
  Qed.
  Theorem C88_cswr B (w : nat) x y b : rounds_within den finite u eta M -> finite_data B x y ->
    in_range (c_rows B) (c_cols B) (c_elems B) -> 0 < w -> w <= sitW -> c_rows B + w + 1 < itW -> c_nnz B < itW ->
    c_cols B <= length x -> length y = c_rows B ->
    exists A B' y', Coo_to_Cswr B w = Ok (A, B') /\ all_schedules (cswr_spmv A x b) (heap_of b y) tt (heap_of b y') /\
      accurate (row_roundings (c_elems B)) (row_products (c_elems B)) (c_elems B) x y y'.
  Proof.
    intros HR (F1 & F2 & F3) HB Hw Hs Hr Hn Hx Hy. destruct (C20_cswr_spmv B w x y b HB Hw Hs Hr Hn Hx Hy) as (A & B' & HA & K).
    exists A, B', (spmv_by_column (c_elems B) x y). do 2 (split; [done|]). by apply by_column_accurate.
  Qed.
  (** the chunked kernel adds the chunks of a block row pairwise: d more roundings, when
      2 * workers <= 2^d *)
  Theorem C88_csbr B roff nbr coff nbc workers x y b d : rounds_within den finite u eta M -> finite_data B x y ->
    blockable B roff nbr coff nbc -> workers_ok B workers -> c_cols B <= length x -> length y = c_rows B -> 2 * workers <= 2 ^ d ->
    exists A parts B' y1 y2, Coo_to_Csbr workers B (full roff) nbr (full coff) nbc = Ok (A, parts, B') /\
      all_schedules (csbr_spmv A parts true x b) (heap_of b y) tt (heap_of b y1) /\
      accurate (row_roundings (c_elems B)) (row_products (c_elems B)) (c_elems B) x y y1 /\
      all_schedules (csbr_spmv A parts false x b) (heap_of b y) tt (heap_of b y2) /\
      accurate (fun i => row_size (c_elems B) i + 1 + d) (row_products (c_elems B)) (c_elems B) x y y2.
  Proof.
    destruct B as [rows cols E]. unfold c_nnz. cbn [c_rows c_cols c_elems].
    intros HR (F1 & F2 & F3) (Hne & HE & Hr & Hc & H1 & H2 & H3 & H4 & H5 & H6) (W1 & W2 & W3) Hx Hy Hd. unfold c_nnz in *. cbn [c_rows c_cols c_elems] in *.
    destruct (Coo_to_Csbr_spec roff nbr rows coff nbc cols E Hr Hc HE Hne H1 H2 H3 H4 H5 H6 workers W1 W2 W3) as (parts & HA & Hg & _ & Hs).
    eexists _, _, _, _, _. split; [exact HA|]. split; [by apply csbr_balanced|]. split; [by apply by_column_accurate|].
    split; [by eapply csbr_unbalanced|]. split; [unfold spmv_chunked; apply imap_length|]. intros i yi Hi.
    apply (spmv_chunked_within roff nbr rows coff nbc cols E Hr Hc HE den finite u eta M HR x parts y i yi d); try done.
    { unfold finite_vector in F3. rewrite Forall_lookup in F3. by eapply F3. }
    etrans; [|exact Hd].
    assert (Hil : i < rows) by (rewrite <- Hy; by eapply lookup_lt_Some). destruct (block_of_spec roff nbr rows i Hr Hil) as [Hbi _].
    destruct Hg as [Hlen _]. destruct (lookup_lt_is_Some_2 parts (block_of roff nbr i)) as [chunks Hch]; [lia|].
    unfold row_chunks. rewrite (nth_lookup_Some parts _ [] chunks Hch). pose proof (Hs _ _ Hch) as Hp.
    set (f := fun k => length (blocks_at roff nbr coff nbc E (nth k (bids roff nbr coff nbc E) 0))) in *.
    pose proof (partition_spec_count _ _ _ _ _ Hp) as Hcnt.
    pose proof (Nat.mul_succ_div_gt (length E) (2 * workers) ltac:(lia)) as Hdv.
    assert (Hle : sum_between f (cntlt (brs roff nbr coff nbc E) (block_of roff nbr i)) (cntlt (brs roff nbr coff nbc E) (S (block_of roff nbr i))) <= length E).
    { rewrite <- (blocks_sum roff nbr coff nbc E). apply sum_between_mono; [lia|]. etrans; [apply cntlt_le|]. unfold brs. by rewrite fmap_length. }
    generalize dependent (length E / (2 * workers)). intros t _ _ Hcnt Hdv.
    destruct (decide (length chunks - 2 < 2 * workers)) as [|Hge]; [lia|]. nia.
  Qed.
  Theorem C88_csbr2 B roff nbr coff nbc x y b : rounds_within den finite u eta M -> finite_data B x y ->
    blockable B roff nbr coff nbc -> c_cols B <= length x -> length y = c_rows B ->
    exists A B' y', Coo_to_Csbr2 B (full roff) nbr (full coff) nbc = Ok (A, B') /\ all_schedules (csbr2_spmv A x b) (heap_of b y) tt (heap_of b y') /\
      accurate (row_roundings (c_elems B)) (row_products (c_elems B)) (c_elems B) x y y'.
  Proof.
    intros HR (F1 & F2 & F3) HB Hx Hy. destruct (C29_csbr2_spmv_any B roff nbr coff nbc x y b HB Hx Hy) as (A & B' & HA & K).
    exists A, B', (spmv_by_column (c_elems B) x y). do 2 (split; [done|]). by apply by_column_accurate.
  Qed.
  Theorem C88_csbr3 B bs x y b : rounds_within den finite u eta M -> finite_data B x y ->
    blockable3 B bs -> c_cols B <= length x -> length y = c_rows B ->
    exists A B' y', Coo_to_Csbr3 B bs = Ok (A, B') /\ all_schedules (csbr3_spmv_balanced A x b) (heap_of b y) tt (heap_of b y') /\
      accurate (row_roundings (c_elems B)) (row_products (c_elems B)) (c_elems B) x y y'.
  Proof.
    intros HR (F1 & F2 & F3) HB Hx Hy. destruct (C30_csbr3_balanced_spmv B bs x y b HB Hx Hy) as (A & B' & HA & K).
    exists A, B', (spmv_by_column (c_elems B) x y). do 2 (split; [done|]). by apply by_column_accurate.
  Qed.

  (** dense blocks multiply their zeros too: at most one more product per column; none if no
      block is dense *)
  Definition extra_products (any_dense : Prop) B (c : nat) : Prop := c = c_cols B \/ c = 0 /\ ~ any_dense.
  Definition some_dense (choose : nat -> nat -> nat -> kind) B roff nbr coff nbc : Prop :=
    exists br bc, br < nbr /\ bc < nbc /\ submatrix roff br coff bc (c_elems B) <> [] /\
      choose (block_rows roff br) (block_rows coff bc) (length (submatrix roff br coff bc (c_elems B))) = KDense.
  Definition some_dense2 (choose : list (elem T) -> nat -> nat -> kind2) B roff nbr coff nbc : Prop :=
    exists br bc L, br < nbr /\ bc < nbc /\ L <> [] /\ same_elements L (submatrix roff br coff bc (c_elems B)) /\
      choose L (block_rows roff br) (block_rows coff bc) = K2Dense.
  (** [parts]: the chunk boundaries of every block row *)
  Definition chunk_depth (parts : list (list nat)) (d : nat) : Prop := Forall (fun chunks => length chunks - 1 <= 2 ^ d) parts.
  Lemma chunk_depth_row roff nbr parts d i : chunk_depth parts d -> length (row_chunks roff nbr parts i) - 1 <= 2 ^ d.
  Proof.
    intros Hd. unfold row_chunks. destruct (decide (block_of roff nbr i < length parts)) as [Hi|Hi].
    - unfold chunk_depth in Hd. rewrite Forall_forall in Hd. apply Hd. apply elem_of_list_In, nth_In. done.
    - rewrite nth_overflow by lia. cbn. lia.
  Qed.
  Lemma local_not_nil roff nbr coff nbc E id : id ∈ bids roff nbr coff nbc E -> local roff nbr coff nbc E id <> [].
  Proof.
    intros Hid Hn. apply bids_elem in Hid as (e & He & Hb). unfold CgbrProof.local in Hn. apply fmap_nil_inv in Hn.
    assert (Hin : e ∈ blocks_at roff nbr coff nbc E id).
    { unfold blocks_at, group. apply elem_of_list_In, filter_In. split; [by apply elem_of_list_In|]. unfold has. by rewrite Hb, Nat.eqb_refl. }
    rewrite Hn in Hin. by apply elem_of_nil in Hin.
  Qed.
  Theorem C88_cgbr (choose : nat -> nat -> nat -> kind) bal B roff nbr coff nbc workers x y b (c : nat) : rounds_within den finite u eta M -> finite_data B x y ->
    blockable B roff nbr coff nbc -> workers_ok B workers -> short_type -> short_blocks roff nbr coff nbc ->
    dense_blocks choose B roff nbr coff nbc small_distinct -> c_cols B <= length x -> length y = c_rows B ->
    extra_products (some_dense choose B roff nbr coff nbc) B c ->
    exists A balanced parts B' y1 y2, Coo_to_Cgbr choose bal workers B (full roff) nbr (full coff) nbc = Ok (A, balanced, parts, B') /\
      all_schedules (cgbr_spmv A balanced parts x b) (heap_of b y) tt (heap_of b y1) /\
      (forall d, chunk_depth parts d ->
         accurate (fun i => row_size (c_elems B) i + c + 1 + if balanced : bool then 0 else d) (fun i => row_size (c_elems B) i + c) (c_elems B) x y y1) /\
      all_schedules (cgbr_spmv_serial A x b) (heap_of b y) tt (heap_of b y2) /\
      accurate (fun i => row_size (c_elems B) i + c + 1) (fun i => row_size (c_elems B) i + c) (c_elems B) x y y2.
  Proof.
    destruct B as [rows cols E]. intros HR (F1 & F2 & F3) HB (W1 & W2 & W3) Hst Hsh Hd Hx Hy Hc0.
    pose proof (makes1 rows cols E roff nbr coff nbc HB Hsh Hst choose (dense_blocks_weaken _ _ _ _ _ _ Hd)) as Hmk.
    pose proof HB as (Hne & HE & Hr & Hc & H1 & H2 & H3 & H4 & H5 & H6). unfold c_nnz in *. cbn [c_rows c_cols c_elems] in *.
    destruct (Coo_to_Cgbr_spec roff nbr rows coff nbc cols E Hr Hc HE Hne H1 H2 H3 H4 H5 H6 (make_block choose) tag1 _ Hmk choose bal workers eq_refl W1 W2 W3)
      as (parts & HA & Hg). cbv zeta in HA, Hg. match type of HA with _ = Ok (_, ?v, _, _) => set (balanced := v) in * end.
    assert (Hdist : forall id, id ∈ bids roff nbr coff nbc E ->
      choose (rsz roff nbc id) (csz coff nbc id) (length (local roff nbr coff nbc E id)) = KDense -> distinct_coords (local roff nbr coff nbc E id)).
    { intros id Hid Hk. destruct (block_facts rows cols E roff nbr coff nbc HB Hsh id Hid) as (G1 & G2 & G3 & G4 & G5 & _ & _ & _ & _ & _ & _ & _ & G13).
      rewrite G13, G4, G5 in Hk. apply (Hd _ _ G1 G2) in Hk as [_ Hk]. eapply same_elements_distinct; [|exact Hk]. unfold same_elements in *. by symmetry. }
    assert (Hcap : c = cols \/ c = 0 /\ forall id, id ∈ bids roff nbr coff nbc E ->
      ~ choose (rsz roff nbc id) (csz coff nbc id) (length (local roff nbr coff nbc E id)) = KDense).
    { destruct Hc0 as [->|[-> Hn]]; [by left|]. right. split; [done|]. intros id Hid Hk. apply Hn.
      destruct (block_facts rows cols E roff nbr coff nbc HB Hsh id Hid) as (G1 & G2 & G3 & G4 & G5 & _ & _ & _ & _ & _ & _ & _ & G13).
      eexists _, _. split; [exact G1|]. split; [exact G2|]. rewrite G13, G4, G5 in Hk. split; [|exact Hk].
      intros Hz. apply (local_not_nil _ _ _ _ _ _ Hid). apply length_zero_iff_nil. cbn [c_elems] in Hz. by rewrite G13, Hz. }
    assert (Hfy : forall i yi, y !! i = Some yi -> finite yi) by (unfold finite_vector in F3; rewrite Forall_lookup in F3; done).
    assert (Hrow : accurate (fun i => row_size E i + c + 1) (fun i => row_size E i + c) E x y (imap (row_val roff nbr coff nbc E (make_block choose) x) y)).
    { split; [apply imap_length|]. intros i yi Hi.
      eapply (row_val_within roff nbr rows coff nbc cols E Hr Hc HE H1 H2 H4 H5 H6 (make_block choose) tag1 _ Hmk Hdist (fun id => kind_dec _) den finite u eta M HR x F1 F2 c Hcap); try done; [by eapply Hfy]. }
    exists (cgbr_matrix roff nbr rows coff nbc cols E (make_block choose)), balanced, parts.
    eexists _, (if balanced then imap (row_val roff nbr coff nbc E (make_block choose) x) y else imap (chunked_val roff nbr coff nbc E (make_block choose) x parts) y), _.
    split; [exact HA|].
    split; [|split; [|split; [eapply matrix_serial; first [exact Hmk|exact Hg|by apply Hg|done]|exact Hrow]]].
    - unfold cgbr_spmv. destruct balanced; [eapply matrix_balanced|eapply matrix_unbalanced]; first [exact Hmk|exact Hg|by apply Hg|done].
    - intros d Hdp. destruct balanced.
      + destruct Hrow as [Hl Hrow]. split; [done|]. intros i yi Hi. rewrite Nat.add_0_r. by apply Hrow.
      + split; [apply imap_length|]. intros i yi Hi.
        eapply (chunked_val_within roff nbr rows coff nbc cols E Hr Hc HE H1 H2 H4 H5 H6 (make_block choose) tag1 _ Hmk Hdist (fun id => kind_dec _) den finite u eta M HR x F1 F2 c Hcap); try done;
          [by apply Hg|by eapply Hfy|by apply chunk_depth_row].
  Qed.
  Theorem C88_cgbr2 (choose : list (elem T) -> nat -> nat -> kind2) B roff nbr coff nbc workers x y b (c : nat) : rounds_within den finite u eta M -> finite_data B x y ->
    blockable B roff nbr coff nbc -> workers_ok B workers -> short_type -> short_blocks roff nbr coff nbc ->
    dense_blocks2 choose B roff nbr coff nbc small_distinct -> c_cols B <= length x -> length y = c_rows B ->
    extra_products (some_dense2 choose B roff nbr coff nbc) B c ->
    exists A parts B', Coo_to_Cgbr2 (make_block2 choose) workers B (full roff) nbr (full coff) nbc = Ok (A, parts, B') /\
      forall balanced, exists y', all_schedules (cgbr2_spmv A balanced parts x b) (heap_of b y) tt (heap_of b y') /\
        forall d, chunk_depth parts d ->
          accurate (fun i => row_size (c_elems B) i + c + 1 + if balanced : bool then 0 else d) (fun i => row_size (c_elems B) i + c) (c_elems B) x y y'.
  Proof.
    destruct B as [rows cols E]. intros HR (F1 & F2 & F3) HB (W1 & W2 & W3) Hst Hsh Hd Hx Hy Hc0.
    pose proof (makes2 rows cols E roff nbr coff nbc HB Hsh choose (dense_blocks2_weaken _ _ _ _ _ _ Hd)) as Hmk.
    pose proof HB as (Hne & HE & Hr & Hc & H1 & H2 & H3 & H4 & H5 & H6). unfold c_nnz in *. cbn [c_rows c_cols c_elems] in *.
    destruct (Coo_to_Cgbr2_spec roff nbr rows coff nbc cols E Hr Hc HE Hne H1 H2 H3 H4 H5 H6 (make_block2 choose) tag2 _ Hmk workers W1 W2 W3)
      as (parts & HA & Hg).
    eexists _, parts, _. split; [exact HA|].
    assert (Hdist : forall id, id ∈ bids roff nbr coff nbc E ->
      choose (local roff nbr coff nbc E id) (rsz roff nbc id) (csz coff nbc id) = K2Dense -> distinct_coords (local roff nbr coff nbc E id)).
    { intros id Hid Hk. destruct (block_facts rows cols E roff nbr coff nbc HB Hsh id Hid) as (G1 & G2 & G3 & G4 & G5 & _).
      rewrite G4, G5 in Hk. by apply (Hd _ _ _ G1 G2 G3) in Hk as [_ Hk]. }
    assert (Hcap : c = cols \/ c = 0 /\ forall id, id ∈ bids roff nbr coff nbc E ->
      ~ choose (local roff nbr coff nbc E id) (rsz roff nbc id) (csz coff nbc id) = K2Dense).
    { destruct Hc0 as [->|[-> Hn]]; [by left|]. right. split; [done|]. intros id Hid Hk. apply Hn.
      destruct (block_facts rows cols E roff nbr coff nbc HB Hsh id Hid) as (G1 & G2 & G3 & G4 & G5 & _).
      rewrite G4, G5 in Hk. eexists _, _, _. split; [exact G1|]. split; [exact G2|]. split; [|split; [exact G3|exact Hk]].
      by apply local_not_nil. }
    assert (Hfy : forall i yi, y !! i = Some yi -> finite yi) by (unfold finite_vector in F3; rewrite Forall_lookup in F3; done).
    unfold cgbr2_spmv. intros [].
    - exists (imap (row_val roff nbr coff nbc E (make_block2 choose) x) y). split; [eapply matrix_balanced; first [exact Hmk|exact Hg|by apply Hg|done]|].
      intros d _. split; [apply imap_length|]. intros i yi Hi. rewrite Nat.add_0_r.
      eapply (row_val_within roff nbr rows coff nbc cols E Hr Hc HE H1 H2 H4 H5 H6 (make_block2 choose) tag2 _ Hmk Hdist (fun id => kind2_dec _) den finite u eta M HR x F1 F2 c Hcap); try done; [by eapply Hfy].
    - exists (imap (chunked_val roff nbr coff nbc E (make_block2 choose) x parts) y). split; [eapply matrix_unbalanced; first [exact Hmk|exact Hg|by apply Hg|done]|].
      intros d Hdp. split; [apply imap_length|]. intros i yi Hi.
      eapply (chunked_val_within roff nbr rows coff nbc cols E Hr Hc HE H1 H2 H4 H5 H6 (make_block2 choose) tag2 _ Hmk Hdist (fun id => kind2_dec _) den finite u eta M HR x F1 F2 c Hcap); try done;
        [by eapply Hfy|by apply chunk_depth_row].
  Qed.

  (** with the decisions the code makes (short indices narrower than the values): no block is
      dense *)
  Theorem C88_cgbr_float (t it s : nat) B roff nbr coff nbc workers x y b : rounds_within den finite u eta M -> finite_data B x y ->
    s < t -> t <= 16 -> 0 < it ->
    blockable B roff nbr coff nbc -> workers_ok B workers -> short_type -> short_blocks roff nbr coff nbc ->
    c_cols B <= length x -> length y = c_rows B ->
    exists A balanced parts B' y1 y2, Coo_to_Cgbr (float_choose t it s) float_balanced workers B (full roff) nbr (full coff) nbc = Ok (A, balanced, parts, B') /\
      all_schedules (cgbr_spmv A balanced parts x b) (heap_of b y) tt (heap_of b y1) /\
      (forall d, chunk_depth parts d ->
         accurate (fun i => row_size (c_elems B) i + 1 + if balanced : bool then 0 else d) (row_products (c_elems B)) (c_elems B) x y y1) /\
      all_schedules (cgbr_spmv_serial A x b) (heap_of b y) tt (heap_of b y2) /\
      accurate (row_roundings (c_elems B)) (row_products (c_elems B)) (c_elems B) x y y2.
  Proof.
    intros HR HF H1 H2 H3 HB HW Hst Hsh Hx Hy. pose proof HW as (W1 & W2 & W3).
    destruct (C88_cgbr (float_choose t it s) float_balanced B roff nbr coff nbc workers x y b 0 HR HF HB HW Hst Hsh) as (A & balanced & parts & B' & y1 & y2 & HA & K1 & K2 & K3 & K4); try done.
    - apply float_no_dense; try done. lia.
    - right. split; [done|]. intros (br & bc & _ & _ & Hn & Hk). rewrite (C84_always_coo t it s) in Hk; [done|done|done|].
      left. destruct (submatrix roff br coff bc (c_elems B)); [done|cbn; lia].
    - exists A, balanced, parts, B', y1, y2. split; [done|]. split; [done|]. split; [|split; [done|]].
      + intros d Hd. destruct (K2 d Hd) as [Hl Hk]. split; [done|]. intros i yi Hi. specialize (Hk i yi Hi). by rewrite !Nat.add_0_r in Hk.
      + destruct K4 as [Hl Hk]. split; [done|]. intros i yi Hi. specialize (Hk i yi Hi). by rewrite !Nat.add_0_r in Hk.
  Qed.

  (** two results for the same row, computed by any two of the kernels, differ by at most the
      sum of their bounds *)
  Definition error_bound (n m : nat) E x i yi : Q :=
    (((1 + u) ^ Z.of_nat n - 1) * magnitude den E x i yi + (1 + u) ^ Z.of_nat n * inject_Z (Z.of_nat m) * eta)%Q.
  Theorem C88_formats_agree (n m n' m' : nat -> nat) E x y y1 y2 i v1 v2 yi : accurate n m E x y y1 -> accurate n' m' E x y y2 ->
    y !! i = Some yi -> y1 !! i = Some v1 -> y2 !! i = Some v2 ->
    ((1 + u) ^ Z.of_nat (n i) * (magnitude den E x i yi + inject_Z (Z.of_nat (m i)) * eta) <= M)%Q ->
    ((1 + u) ^ Z.of_nat (n' i) * (magnitude den E x i yi + inject_Z (Z.of_nat (m' i)) * eta) <= M)%Q ->
    (Qabs (den v1 - den v2) <= error_bound (n i) (m i) E x i yi + error_bound (n' i) (m' i) E x i yi)%Q.
  Proof.
    intros [_ A1] [_ A2] Hi H1 H2 HM1 HM2. destruct (A1 i yi Hi) as (w1 & Hw1 & W1). destruct (A2 i yi Hi) as (w2 & Hw2 & W2).
    rewrite H1 in Hw1. rewrite H2 in Hw2. injection Hw1 as <-. injection Hw2 as <-.
    destruct (W1 HM1) as [_ E1]. destruct (W2 HM2) as [_ E2]. unfold error_bound.
    pose proof (Qabs_triangle (den v1 - exact_row den E x i yi) (exact_row den E x i yi - den v2)) as Ht.
    rewrite (Qabs_wd (den v1 - exact_row den E x i yi + (exact_row den E x i yi - den v2)) (den v1 - den v2)) in Ht by lra.
    rewrite (Qabs_Qminus (exact_row den E x i yi) (den v2)) in Ht. lra.
  Qed.
End C88.

(** the usual form of the bound *)
Theorem C88_growth (u : Q) (n : nat) : (0 <= u)%Q -> (inject_Z (Z.of_nat n) * u < 1)%Q ->
  ((1 + u) ^ Z.of_nat n - 1 <= inject_Z (Z.of_nat n) * u / (1 - inject_Z (Z.of_nat n) * u))%Q.
Proof.
  intros Hu Hn.
  assert (Hp : forall k, (inject_Z (Z.of_nat k) * u < 1)%Q -> ((1 + u) ^ Z.of_nat k * (1 - inject_Z (Z.of_nat k) * u) <= 1)%Q /\ (1 <= (1 + u) ^ Z.of_nat k)%Q).
  { induction k as [|k IH]; intros Hk; [change ((1 + u) ^ Z.of_nat 0)%Q with 1%Q; change (inject_Z (Z.of_nat 0)) with 0%Q; lra|].
    assert (Hs : (inject_Z (Z.of_nat (S k)) == inject_Z (Z.of_nat k) + 1)%Q).
    { rewrite Nat2Z.inj_succ. unfold Z.succ. by rewrite inject_Z_plus. }
    assert (H0 : (0 <= inject_Z (Z.of_nat k))%Q) by (change 0%Q with (inject_Z 0); rewrite <- Zle_Qle; lia).
    rewrite Hs in Hk |- *. destruct IH as [IH1 IH2]; [lra|].
    assert (Hw : ((1 + u) ^ Z.of_nat (S k) == (1 + u) * (1 + u) ^ Z.of_nat k)%Q).
    { rewrite Nat2Z.inj_succ. unfold Z.succ. rewrite Qpower_plus by lra. change ((1 + u) ^ 1)%Q with (1 + u)%Q. lra. }
    rewrite Hw. generalize dependent ((1 + u) ^ Z.of_nat k)%Q. intros p IH1 IH2 _. generalize dependent (inject_Z (Z.of_nat k)). intros q _ _ H0 IH1.
    split; [|nra]. assert (Hle : ((1 + u) * (1 - (q + 1) * u) <= 1 - q * u)%Q) by nra.
    assert (p * ((1 + u) * (1 - (q + 1) * u)) <= p * (1 - q * u))%Q by (rewrite !(Qmult_comm p); apply Qmult_le_compat_r; lra). lra. }
  destruct (Hp n Hn) as [Hp1 Hp2]. apply Qle_shift_div_l; [lra|]. lra.
Qed.

(** exact integers are the case u = eta = 0; the matrix ex_B (Properties_Reuse.v) meets the
    hypotheses of every theorem above (C28_C41_ex); the floats are in Properties_Ieee.v *)
Lemma Z_rounds_within (M : Q) : rounds_within (T := Z) inject_Z (fun _ => True) 0 0 M.
Proof.
  split; [done|done|done| |].
  - intros a b _ _ _. split; [done|]. change (sadd a b) with (a + b)%Z. rewrite inject_Z_plus.
    rewrite (Qabs_wd (inject_Z a + inject_Z b - (inject_Z a + inject_Z b)) 0) by lra. change (Qabs 0) with 0%Q. lra.
  - intros a b _ _ _. split; [done|]. change (smul a b) with (a * b)%Z. rewrite inject_Z_mult.
    rewrite (Qabs_wd (inject_Z a * inject_Z b - inject_Z a * inject_Z b) 0) by lra. change (Qabs 0) with 0%Q. lra.
Qed.
Example C88_ex : rounds_within (T := Z) inject_Z (fun _ => True) 0 0 1000000 /\ finite_data (T := Z) (fun _ => True) ex_B ex_x ex_y /\
  blockable (H := default_widths) ex_B [0; 2; 4] 2 [0; 3; 5] 2 /\ workers_ok (H := default_widths) ex_B 4 /\ 2 * 4 <= 2 ^ 3 /\
  c_cols ex_B <= length ex_x /\ length ex_y = c_rows ex_B /\
  (magnitude inject_Z (c_elems ex_B) ex_x 3 (nth 3 ex_y 0%Z) <= 1000000)%Q /\ row_size (c_elems ex_B) 3 = 2.
Proof.
  split; [apply Z_rounds_within|]. split; [split; [|split]; by apply Forall_true|]. destruct ex_blockable as (H1 & H2 & _).
  split; [exact H1|]. split; [exact H2|]. split; [cbn; lia|]. split; [cbn; lia|]. split; [done|]. split; [vm_compute; discriminate|reflexivity].
Qed.
