(** Properties_Drivers.v: C78-C83, the timing summary, the benchmark harness and the drivers. *)
From Verif Require Export Properties_BlockIo Properties_Tools4 PermuteProof ToolsProof Properties_Tools Properties_Tools2 DriversProof Cgbr3Proof Properties_Utils Properties_Simple Properties_Blocked Properties_Reuse Properties_Cgbr Properties_Permute Properties_Io Properties_Mm2.
From Coq Require Import QArith Lqa.
Local Open Scope nat_scope.

(** ** C78: the summary of timings *)
(** [r] describes the measured [times]: the smallest, the largest, one in the middle, the mean *)
Definition summary (nnz : nat) (times : list Z) (r : report) : Prop :=
  let n := length times in
  rp_nnz r = nnz /\
  (rp_best r ∈ times /\ forall t, t ∈ times -> (rp_best r <= t)%Z) /\
  (rp_worst r ∈ times /\ forall t, t ∈ times -> (t <= rp_worst r)%Z) /\
  (rp_median r ∈ times /\ 2 * length (bfilter (fun t => (t <? rp_median r)%Z) times) <= n /\ 2 * length (bfilter (fun t => (rp_median r <? t)%Z) times) <= n) /\
  (rp_mean r * inject_Z (Z.of_nat n) == inject_Z (foldr Z.add 0%Z times))%Q.
Lemma zsum_foldr (l : list Z) : zsum l = foldr Z.add 0%Z l.
Proof. induction l as [|a l IH]; [done|]. rewrite zsum_cons. cbn [foldr]. by rewrite IH. Qed.
Lemma inject_pos (n : nat) : 0 < n -> (0 < inject_Z (Z.of_nat n))%Q.
Proof. intros Hn. unfold Qlt, inject_Z. simpl. lia. Qed.
Lemma half_lt (n : nat) : 0 < n -> n / 2 < n.
Proof. intros Hn. apply Nat.div_lt; lia. Qed.
Theorem C78_summary (nnz : nat) (times : list Z) : times <> [] ->
  exists r, print_timing nnz (length times) times = Ok r /\ summary nnz times r /\
    (inject_Z (rp_best r) <= rp_mean r <= inject_Z (rp_worst r))%Q /\ (rp_best r <= rp_median r <= rp_worst r)%Z.
Proof.
  intros Hne. assert (Hn : 0 < length times) by (destruct times; [done|simpl; lia]).
  pose proof (zsort_perm times) as Hp. pose proof (zsort_sorted times) as Hs. assert (Hl : length (zsort times) = length times) by (by rewrite Hp).
  pose proof (half_lt _ Hn) as Hh. unfold print_timing. rewrite !lget_nth by lia. cbn [mbind outcome_bind].
  rewrite (proj2 (Nat.eqb_neq (length times) 0)) by lia. cbn [mbind outcome_bind]. eexists. split; [reflexivity|].
  assert (Hin : forall i, i < length times -> nth i (zsort times) 0%Z ∈ times).
  { intros i Hi. eapply elem_of_Permutation_proper; [symmetry; exact Hp|]. apply elem_of_list_In, nth_In. lia. }
  assert (Hlo : forall t, t ∈ times -> (nth 0 (zsort times) 0 <= t)%Z).
  { intros t Ht. eapply elem_of_Permutation_proper in Ht; [|exact Hp]. apply elem_of_list_lookup in Ht as [i Hi]. pose proof (lookup_lt_Some _ _ _ Hi).
    rewrite <- (nth_lookup_Some _ _ 0%Z _ Hi). apply sorted_nth; [done|lia|done]. }
  assert (Hhi : forall t, t ∈ times -> (t <= nth (length times - 1) (zsort times) 0)%Z).
  { intros t Ht. eapply elem_of_Permutation_proper in Ht; [|exact Hp]. apply elem_of_list_lookup in Ht as [i Hi]. pose proof (lookup_lt_Some _ _ _ Hi).
    rewrite <- (nth_lookup_Some _ _ 0%Z _ Hi). apply sorted_nth; [done|lia|lia]. }
  assert (Hpos := inject_pos _ Hn).
  assert (Hmean : (inject_Z (zsum (zsort times)) / inject_Z (Z.of_nat (length times)) * inject_Z (Z.of_nat (length times)) == inject_Z (zsum times))%Q).
  { rewrite (zsum_perm _ _ Hp). field. intros E. rewrite E in Hpos. by apply Qlt_irrefl in Hpos. }
  cbn [rp_nnz rp_best rp_worst rp_median rp_mean]. split; [|split].
  - unfold summary. cbn [rp_nnz rp_best rp_worst rp_median rp_mean]. cbv zeta. split; [done|].
    split; [split; [by apply Hin|done]|]. split; [split; [apply Hin; lia|done]|]. split.
    + split; [by apply Hin|]. destruct (count_below (zsort times) (length times / 2) Hs) as [C1 C2]; [lia|].
      rewrite (bfilter_perm_length _ _ _ Hp) in C1. rewrite (bfilter_perm_length _ _ _ Hp) in C2.
      pose proof (Nat.div_mod (length times) 2 ltac:(lia)). pose proof (Nat.mod_upper_bound (length times) 2 ltac:(lia)). rewrite Hl in C2. lia.
    + rewrite Hmean, zsum_foldr. done.
  - assert (Hb : Forall (fun t => nth 0 (zsort times) 0 <= t <= nth (length times - 1) (zsort times) 0)%Z times).
    { apply Forall_forall. intros t Ht. split; [by apply Hlo|by apply Hhi]. }
    apply zsum_bounds in Hb. rewrite <- (zsum_perm _ _ Hp) in Hb. split.
    + apply Qle_shift_div_l; [done|]. rewrite <- inject_Z_mult, <- Zle_Qle. lia.
    + apply Qle_shift_div_r; [done|]. rewrite <- inject_Z_mult, <- Zle_Qle. lia.
  - split; [by apply Hlo, Hin|by apply Hhi, Hin].
Qed.
Theorem C78_no_measurement (nnz : nat) : print_timing nnz 0 [] = Undef OutOfBounds.
Proof. done. Qed.
(** median (include/test/utils.h): the middle one, or halfway between the two in the middle *)
Theorem C78_median (data : list Z) : data <> [] ->
  exists m lo hi, median data = Ok m /\ (m * 2 == inject_Z (lo + hi))%Q /\ lo ∈ data /\ hi ∈ data /\ (lo <= hi)%Z /\
    (Nat.Odd (length data) -> lo = hi) /\
    (forall t, t ∈ data -> t <= lo \/ hi <= t)%Z /\
    2 * length (bfilter (fun t => (t <? lo)%Z) data) <= length data /\ 2 * length (bfilter (fun t => (hi <? t)%Z) data) <= length data.
Proof.
  intros Hne. assert (Hn : 0 < length data) by (destruct data; [done|simpl; lia]).
  pose proof (zsort_perm data) as Hp. pose proof (zsort_sorted data) as Hs. assert (Hl : length (zsort data) = length data) by (by rewrite Hp).
  pose proof (half_lt _ Hn) as Hh. pose proof (Nat.div_mod (length data) 2 ltac:(lia)) as Hd. pose proof (Nat.mod_upper_bound (length data) 2 ltac:(lia)) as Hm.
  assert (Hin : forall i, i < length data -> nth i (zsort data) 0%Z ∈ data).
  { intros i Hi. eapply elem_of_Permutation_proper; [symmetry; exact Hp|]. apply elem_of_list_In, nth_In. lia. }
  assert (Hsplit : forall i j, i <= j <= S i -> j < length data -> forall t, t ∈ data -> (t <= nth i (zsort data) 0 \/ nth j (zsort data) 0 <= t)%Z).
  { intros i j Hij Hj t Ht. eapply elem_of_Permutation_proper in Ht; [|exact Hp]. apply elem_of_list_lookup in Ht as [l Hi]. pose proof (lookup_lt_Some _ _ _ Hi).
    rewrite <- (nth_lookup_Some _ _ 0%Z _ Hi). destruct (decide (l <= i)); [left|right]; apply sorted_nth; try done; lia. }
  assert (Hcount : forall i, i < length data -> length (bfilter (fun t => (t <? nth i (zsort data) 0)%Z) data) <= i /\ length (bfilter (fun t => (nth i (zsort data) 0 <? t)%Z) data) <= length data - 1 - i).
  { intros i Hi. destruct (count_below (zsort data) i Hs) as [C1 C2]; [lia|]. rewrite (bfilter_perm_length _ _ _ Hp) in C1. rewrite (bfilter_perm_length _ _ _ Hp) in C2. by rewrite <- Hl. }
  unfold median. destruct (Nat.eqb_spec (length data mod 2) 0) as [Hz|Hz].
  - rewrite (proj2 (Nat.eqb_neq (length data) 0)) by lia. rewrite !lget_nth by lia. cbn [mbind outcome_bind].
    eexists _, (nth (length data / 2 - 1) (zsort data) 0%Z), (nth (length data / 2) (zsort data) 0%Z). split; [reflexivity|].
    split; [rewrite inject_Z_plus; field|]. split; [apply Hin; lia|]. split; [by apply Hin|]. split; [apply sorted_nth; [done|lia|lia]|].
    split; [intros [q Hq]; exfalso; rewrite Hq in Hz; rewrite Nat.add_comm, Nat.mul_comm, Nat.mod_add in Hz by lia; done|].
    split; [apply Hsplit; lia|]. destruct (Hcount (length data / 2 - 1)) as [C1 _]; [lia|]. destruct (Hcount (length data / 2)) as [_ C2]; [lia|]. lia.
  - rewrite !lget_nth by lia. cbn [mbind outcome_bind].
    eexists _, (nth (length data / 2) (zsort data) 0%Z), (nth (length data / 2) (zsort data) 0%Z). split; [reflexivity|].
    split; [rewrite inject_Z_plus; ring|]. split; [by apply Hin|]. split; [by apply Hin|]. split; [done|]. split; [done|].
    split; [apply Hsplit; lia|]. destruct (Hcount (length data / 2)) as [C1 C2]; [lia|]. lia.
Qed.
Theorem C78_median_empty : median [] = Undef OutOfBounds.
Proof. done. Qed.
Example C78_ex : print_timing 7 4 [30; 10; 40; 20]%Z = Ok (Report 7 10 30 (100 # 4) 40) /\ median [30; 10; 40; 20]%Z = Ok (50 # 2) /\ median [3; 1; 2]%Z = Ok (2 # 1).
Proof. by vm_compute. Qed.

(** ** C79: the harness *)
Section C79.
  Context {T : Type} `{Scalar T} `{Widths}.
  Implicit Types (B : coo T) (x y : list T) (b : buf).
  (** whatever the matrix does, as long as its product is defined: the vectors are set up, the
      products are taken, every cell that was allocated is released, and what is printed
      describes the measured times and the matrix's number of non-zeros *)
  Theorem C79_benchmark (M : bench T) B iterations rand laps b : usable M B -> 0 < iterations ->
    exists r, all_schedules (benchmark M iterations rand laps b) ∅ r ∅ /\ summary (c_nnz B) (laps <$> seq 0 iterations) r.
  Proof.
    intros HM Hi. destruct (C78_summary (c_nnz B) (laps <$> seq 0 iterations)) as (r & Hr & Hs & _).
    { destruct iterations; [lia|done]. }
    rewrite fmap_length, seq_length in Hr. exists r. split; [by eapply benchmark_spec|done].
  Qed.
  Theorem C79_no_iterations_refuted (M : bench T) B rand laps b : usable M B -> never_completes (benchmark M 0 rand laps b) ∅.
  Proof. apply benchmark_zero_iterations. Qed.
  (** the vector is not cleared between the products: after the warm-up and k passes it holds
      y + (k + 1) A x *)
  Lemma iter_product (E : list (elem T)) (cols : nat) x (one : T) : exact_arith T one -> forall k y,
    Nat.iter k (y_plus_Ax E cols x) y = imap (fun i yi => sadd yi (times k (dot E cols x i))) y.
  Proof.
    intros SR. destruct SR. induction k as [|k IH]; intros y; cbn [Nat.iter times].
    - change (Nat.iter 0 (y_plus_Ax E cols x) y) with y. apply list_eq. intros i. rewrite list_lookup_imap. destruct (y !! i) as [yi|]; [|reflexivity]. cbn [fmap option_fmap option_map]. by rewrite SRadd_comm, SRadd_0_l.
    - change (Nat.iter (S k) (y_plus_Ax E cols x) y) with (y_plus_Ax E cols x (Nat.iter k (y_plus_Ax E cols x) y)). rewrite IH. unfold y_plus_Ax. apply list_eq. intros i. rewrite !list_lookup_imap. destruct (y !! i) as [yi|]; [|reflexivity]. cbn [fmap option_fmap option_map].
      f_equal. rewrite <- SRadd_assoc. f_equal. apply SRadd_comm.
  Qed.
  Theorem C79_passes (M : bench T) B iterations x y b (one : T) : exact_arith T one ->
    computes M B (y_plus_Ax (c_elems B) (c_cols B)) -> length x = c_cols B -> length y = c_rows B ->
    all_schedules (passes M iterations x b) (heap_of b y) tt
      (heap_of b (imap (fun i yi => sadd yi (times (S iterations) (dot (c_elems B) (c_cols B) x i))) y)).
  Proof.
    intros SR HM Hx Hy. rewrite <- (iter_product _ _ _ one SR). by apply (passes_spec M B).
  Qed.

  (** *** the formats can be used by it *)
  (** what the readers need, and CSR *)
  Definition csr_able B : Prop := in_range (c_rows B) (c_cols B) (c_elems B) /\ c_rows B + 1 < itW /\ c_nnz B < itW.
  Lemma spmv_by_column_length (E : list (elem T)) x y : length (spmv_by_column E x y) = length y.
  Proof. apply imap_length. Qed.
  Lemma csr_computes B : csr_able B -> exists A B', Coo_to_Csr B = Ok (A, B') /\
    computes (csr_bench A) B (spmv_by_column (c_elems B)) /\ computes (csr2_bench A) B (spmv_by_column (c_elems B)) /\
    c_rows B' = c_rows B /\ c_cols B' = c_cols B /\ c_elems B' ≡ₚ c_elems B.
  Proof.
    intros (H1 & H2 & H3). destruct (C17_coo_to_csr B H1 H2 H3) as (A & B' & HA & _ & Hn & HB). exists A, B'. split; [done|].
    destruct (csr_dims B A B' HA) as [D1 D2].
    assert (Hc : forall x y b, length x = c_cols B -> length y = c_rows B -> length (spmv_by_column (c_elems B) x y) = c_rows B /\
      all_schedules (csr_spmv A x b) (heap_of b y) tt (heap_of b (spmv_by_column (c_elems B) x y)) /\
      all_schedules (csr2_spmv A x b) (heap_of b y) tt (heap_of b (spmv_by_column (c_elems B) x y))).
    { intros x y b Hx Hy. split; [by rewrite spmv_by_column_length|].
      destruct (C19_csr_kernels_agree B x y b H1 H2 H3) as (A' & B2 & HA' & S1 & _ & S2 & _); [lia|done|]. rewrite HA in HA'. by injection HA' as <- <-. }
    split; [|split; [|done]]; (split; [done|]; split; [done|]; split; [done|]); intros x y b Hx Hy; by destruct (Hc x y b Hx Hy) as (? & ? & ?).
  Qed.
  Lemma cswr_computes B w : in_range (c_rows B) (c_cols B) (c_elems B) -> 0 < w -> w <= sitW -> c_rows B + w + 1 < itW -> c_nnz B < itW ->
    exists A B', Coo_to_Cswr B w = Ok (A, B') /\ computes (cswr_bench A) B (spmv_by_column (c_elems B)).
  Proof.
    intros H1 H2 H3 H4 H5.
    destruct (C20_cswr_spmv B w (replicate (c_cols B) s0) (replicate (c_rows B) s0) [] H1 H2 H3 H4 H5) as (A & B' & HA & _); [by rewrite replicate_length..|].
    exists A, B'. split; [done|]. destruct (cswr_dims B w A B' HA) as (D1 & D2 & D3). split; [done|]. split; [done|].
    split; [unfold cswr_bench; cbn [bm_nonzeros]; by rewrite D3|]. intros x y b Hx Hy. split; [by rewrite spmv_by_column_length|].
    destruct (C20_cswr_spmv B w x y b H1 H2 H3 H4 H5) as (A' & B2 & HA' & Hs); [lia|done|]. rewrite HA in HA'. by injection HA' as <- <-.
  Qed.
End C79.

Section formats.
  Context {T : Type} `{Scalar T} `{Widths}.
  Implicit Types (B : coo T) (x y : list T) (b : buf).
  (** a matrix that constant blocks of size s can be made of, by [workers] threads *)
  Definition const_able B (s workers : nat) : Prop :=
    0 < s /\ c_elems B <> [] /\ in_range (c_rows B) (c_cols B) (c_elems B) /\ c_rows B + 2 < itW /\ c_cols B + 2 < itW /\
    Nat.max 1 (c_rows B / s) * Nat.max 1 (c_cols B / s) < itW /\ workers_ok B workers.
  Lemma const_able_blockable B s workers : const_able B s workers ->
    blockable B (const_off (c_rows B) s) (const_nb (c_rows B) s) (const_off (c_cols B) s) (const_nb (c_cols B) s).
  Proof.
    intros (H1 & H2 & H3 & H4 & H5 & H6 & (W1 & W2 & W3)). apply blockable_const; try done; [lia|by rewrite !const_nb_max].
  Qed.
  Lemma csbr_computes B s workers : const_able B s workers ->
    exists A parts B', Coo_to_Csbr_const workers B s s = Ok (A, parts, B') /\ computes (csbr_bench A parts) B (spmv_by_column (c_elems B)).
  Proof.
    intros Ha. pose proof (const_able_blockable B s workers Ha) as Hb. destruct Ha as (H1 & H2 & H3 & H4 & H5 & H6 & HW).
    unfold Coo_to_Csbr_const. rewrite !const_offsets_spec by done. cbn [mbind outcome_bind].
    destruct (C28_csbr_spmv_any B _ _ _ _ workers (replicate (c_cols B) s0) (replicate (c_rows B) s0) [] Hb HW) as (A & parts & B' & _ & HA & _ & _); [by rewrite replicate_length..|].
    exists A, parts, B'. split; [done|]. destruct (csbr_dims _ _ _ _ _ _ _ _ _ HA) as (D1 & D2 & D3). split; [done|]. split; [done|].
    split; [unfold csbr_bench; cbn [bm_nonzeros]; by rewrite D3|]. intros x y b Hx Hy. split; [by rewrite spmv_by_column_length|].
    destruct (C28_csbr_spmv_any B _ _ _ _ workers x y b Hb HW) as (A' & parts' & B2 & y' & HA' & Hs & _); [lia|done|]. rewrite HA in HA'. by injection HA' as <- <- <-.
  Qed.
  Lemma csbr2_computes B s workers : const_able B s workers ->
    exists A B', Coo_to_Csbr2_const B s s = Ok (A, B') /\ computes (csbr2_bench A) B (spmv_by_column (c_elems B)).
  Proof.
    intros Ha. pose proof (const_able_blockable B s workers Ha) as Hb. destruct Ha as (H1 & H2 & H3 & H4 & H5 & H6 & HW).
    unfold Coo_to_Csbr2_const. rewrite !const_offsets_spec by done. cbn [mbind outcome_bind].
    destruct (C29_csbr2_spmv_any B _ _ _ _ (replicate (c_cols B) s0) (replicate (c_rows B) s0) [] Hb) as (A & B' & HA & _); [by rewrite replicate_length..|].
    exists A, B'. split; [done|]. destruct (csbr2_dims _ _ _ _ _ _ _ HA) as (D1 & D2 & D3). split; [done|]. split; [done|].
    split; [unfold csbr2_bench; cbn [bm_nonzeros]; by rewrite D3|]. intros x y b Hx Hy. split; [by rewrite spmv_by_column_length|].
    destruct (C29_csbr2_spmv_any B _ _ _ _ x y b Hb) as (A' & B2 & HA' & Hs); [lia|done|]. rewrite HA in HA'. by injection HA' as <- <-.
  Qed.
  (** blocks of constant size have fewer than 2 s rows and columns *)
  Lemma const_extent (dim size bi : nat) : 0 < size -> bi < const_nb dim size -> block_rows (const_off dim size) bi < 2 * size.
  Proof.
    intros Hs Hbi. unfold block_rows, const_off. rewrite !nth_lookup, !fmap_seq_lookup by lia. cbn [default id].
    rewrite (proj2 (Nat.eqb_neq bi (const_nb dim size))) by lia.
    destruct (Nat.eqb_spec (S bi) (const_nb dim size)) as [Hl|]; [|cbn; nia].
    unfold const_nb in Hl. pose proof (Nat.div_mod dim size ltac:(lia)) as Hdm. pose proof (Nat.mod_upper_bound dim size ltac:(lia)).
    destruct (Nat.eqb_spec (dim / size) 0) as [Hz|Hz].
    - replace bi with 0 by lia. rewrite Hz in Hdm. lia.
    - rewrite <- Hl in Hdm. nia.
  Qed.
  (** short indices hold the coordinates in blocks of size s, and the area of a block fits an index *)
  Definition short_able (s : nat) : Prop := 2 * s <= sitW + 1 /\ 2 * s * (2 * s) <= itW /\ short_type.
  Lemma const_small B s workers : const_able B s workers -> short_able s -> forall br bc, br < const_nb (c_rows B) s -> bc < const_nb (c_cols B) s ->
    block_rows (const_off (c_rows B) s) br * block_rows (const_off (c_cols B) s) bc < itW.
  Proof.
    intros (H1 & _) (_ & H2 & _) br bc Hr Hc. pose proof (const_extent _ _ _ H1 Hr). pose proof (const_extent _ _ _ H1 Hc).
    eapply Nat.lt_le_trans; [|exact H2]. apply Nat.mul_lt_mono; done.
  Qed.
  Lemma cgbr_usable choose bal B s workers : const_able B s workers -> short_able s ->
    exists A balanced parts B', Coo_to_Cgbr_const choose bal workers B s s = Ok (A, balanced, parts, B') /\ usable (cgbr_bench A balanced parts) B.
  Proof.
    intros Ha Hsh. pose proof (const_able_blockable B s workers Ha) as Hb. pose proof (const_small B s workers Ha Hsh) as Hsm.
    destruct Ha as (H1 & H2 & H3 & H4 & H5 & H6 & HW). destruct Hsh as (S1 & S2 & S3).
    unfold Coo_to_Cgbr_const. rewrite !const_offsets_spec by done. cbn [mbind outcome_bind].
    destruct (C33_cgbr_deterministic choose bal B _ _ _ _ workers Hb HW S3 (const_short B s s H1 H1 S1 S1)) as (A & balanced & parts & B' & HA & Hs).
    { intros br bc Hr Hc L _. by apply Hsm. }
    exists A, balanced, parts, B'. split; [done|]. destruct (cgbr_dims _ _ _ _ _ _ _ _ _ _ _ _ HA) as (D1 & D2 & D3). split; [done|]. split; [done|].
    split; [unfold cgbr_bench; cbn [bm_nonzeros]; by rewrite D3|]. intros x y b Hx Hy.
    destruct (Hs x y b) as (y1 & y2 & S4 & _ & _ & S5); [lia|done|]. exists y1. split; [lia|done].
  Qed.
  Lemma cgbr2_usable choose balanced B s workers : const_able B s workers -> short_able s ->
    exists A parts B', Coo_to_Cgbr2_const (make_block2 choose) workers B s s = Ok (A, parts, B') /\ usable (cgbr2_bench A balanced parts) B.
  Proof.
    intros Ha Hsh. pose proof (const_able_blockable B s workers Ha) as Hb. pose proof (const_small B s workers Ha Hsh) as Hsm.
    destruct Ha as (H1 & H2 & H3 & H4 & H5 & H6 & HW). destruct Hsh as (S1 & S2 & S3).
    unfold Coo_to_Cgbr2_const. rewrite !const_offsets_spec by done. cbn [mbind outcome_bind].
    destruct (C34_cgbr2_deterministic choose B _ _ _ _ workers Hb HW S3 (const_short B s s H1 H1 S1 S1)) as (A & parts & B' & HA & Hs).
    { intros br bc L Hr Hc _ _. by apply Hsm. }
    exists A, parts, B'. split; [done|]. destruct (cgbr2_dims _ _ _ _ _ _ _ _ _ _ HA) as (D1 & D2 & D3). split; [done|]. split; [done|].
    split; [unfold cgbr2_bench; cbn [bm_nonzeros]; by rewrite D3|]. intros x y b Hx Hy.
    destruct (Hs balanced x y b) as (y1 & S4 & S5); [lia|done|]. exists y1. split; [lia|done].
  Qed.
End formats.

(** ** C80-C83: the drivers *)
Section drivers.
  Context {T : Type} `{Scalar T} `{Widths} (RT : repr T) (k : nat) (scan_g : bytes -> option T * bytes).
  Implicit Types (F : fs) (B : coo T) (name : bytes) (args : list bytes).
  Notation read_file := (read_file RT k scan_g).
  (** the file is read as the matrix B.  C51 gives this for every written .bin file, C62 for every
      general or symmetric .mtx file: below *)
  Definition reads F name B : Prop := exists A, read_file F name = Ok (0%Z, Some A) /\ raw_holds A B.
  Theorem C80_reads_bin F name B : index_bytes k -> storable RT -> fits B ->
    (exists p, name = p ++ str ".bin") -> F !! name = Some (write_bin_COO RT k B) -> reads F name B.
  Proof.
    intros Hk HR HB Hn HF. exists (raw_of B). split.
    - unfold Drivers.read_file. rewrite (proj1 (C65_dispatch _ _ _ _) Hn). rewrite HF. by apply C51_bin_roundtrip.
    - split; [done|]. split; [done|]. split; [done|]. unfold raw_of, c_nnz, full. cbn [r_row r_col r_val].
      rewrite !firstn_all2; [done|rewrite !fmap_length; lia..].
  Qed.
  Theorem C80_reads_mtx F name t nr nc nnz h l f rest :
    (exists p, name = p ++ str ".mtx") -> F !! name = Some (h ++ f) ->
    mm_header t nr nc nnz h -> mm_is_complex t = false -> mm_is_coordinate t = true -> mm_is_symmetric t = false ->
    (0 <= nr < Z.of_nat itW)%Z -> (0 <= nc < Z.of_nat itW)%Z -> (0 <= nnz < Z.of_nat itW)%Z ->
    entries_text scan_g l f rest -> Forall indexable l -> length l <= Z.to_nat nnz -> (length l < Z.to_nat nnz -> spaces rest) ->
    reads F name (Coo (Z.to_nat nr) (Z.to_nat nc) (listed <$> l)).
  Proof.
    intros Hn HF H1 H2 H3 H4 H5 H6 H7 H8 H9 H10 H11.
    destruct (C62_general scan_g (S (match F !! name with Some f => length f | None => 0 end)) t nr nc nnz h l f rest) as (A & HA & HB); try done.
    exists A. split; [|done]. unfold Drivers.read_file. rewrite (proj1 (proj2 (C65_dispatch _ _ _ _)) Hn). by rewrite HF in *.
  Qed.

  Context (iterations : nat) (rand : nat -> nat -> T) (laps : nat -> nat -> Z) (workers : nat) (logbeta : nat -> nat -> N) (val_size : N).
  Notation pick := (pick workers logbeta val_size).
  Notation csr_driver := (csr_driver RT k scan_g iterations rand laps).
  Notation cswr_driver := (cswr_driver RT k scan_g iterations rand laps).
  Notation blocked_driver := (blocked_driver RT k scan_g iterations rand laps workers logbeta val_size).
  Notation bench_driver := (bench_driver RT k scan_g iterations rand laps workers logbeta val_size).
  Notation pbench_driver := (pbench_driver RT k scan_g iterations rand laps workers logbeta val_size).

  (** what the drivers convert: the elements with the block field blank *)
  Definition blank B : coo T := Coo (c_rows B) (c_cols B) ((fun e => Elem (row e) (col e) (val e) 0) <$> c_elems B).
  Lemma blank_nnz B : c_nnz (blank B) = c_nnz B.
  Proof. apply fmap_length. Qed.
  Lemma zip_blank (E : list (elem T)) : (fun '(r, (c, v)) => Elem r c v 0) <$> zip (row <$> E) (zip (col <$> E) (val <$> E)) = (fun e => Elem (row e) (col e) (val e) 0) <$> E.
  Proof. induction E as [|e E IH]; [done|]. cbn. f_equal. exact IH. Qed.
  Lemma coo_of_read_spec A B : raw_holds A B -> coo_of_read A = Ok (blank B).
  Proof.
    intros (H1 & H2 & H3 & H4 & H5 & H6). unfold coo_of_read. rewrite H3, H4, H5, H6, !whole_full. cbn [mbind outcome_bind]. by rewrite H1, H2, zip_blank.
  Qed.
  Lemma blank_in_range B : in_range (c_rows B) (c_cols B) (c_elems B) -> in_range (c_rows (blank B)) (c_cols (blank B)) (c_elems (blank B)).
  Proof. unfold in_range, blank. cbn [c_rows c_cols c_elems]. rewrite Forall_fmap. done. Qed.
  Lemma blank_csr_able B : csr_able B -> csr_able (blank B).
  Proof. intros (H1 & H2 & H3). split; [by apply blank_in_range|]. rewrite blank_nnz. done. Qed.
  Lemma blank_const_able B s w : const_able B s w -> const_able (blank B) s w.
  Proof.
    intros (H1 & H2 & H3 & H4 & H5 & H6 & H7 & H8 & H9). split; [done|]. split; [unfold blank; cbn; by destruct (c_elems B)|]. split; [by apply blank_in_range|].
    do 3 (split; [done|]). unfold workers_ok. by rewrite blank_nnz.
  Qed.

  (** *** C80: csr.cpp for Csr and Csr2, cswr.cpp *)
  Definition succeeds B (p : prog T (Z * list report)) : Prop :=
    exists r, all_schedules p ∅ (0%Z, [r]) ∅ /\ summary (c_nnz B) (laps 0 <$> seq 0 iterations) r.
  Lemma csr_driver_spec convert name args F B M : reads F name B -> convert (blank B) = Ok M -> usable M (blank B) -> 0 < iterations ->
    succeeds B (csr_driver convert (name :: args) F).
  Proof.
    intros (A & HA & HB) HM HU Hi. destruct (C79_benchmark M (blank B) iterations (rand 0) (laps 0) [] HU Hi) as (r & Hr & Hs).
    exists r. rewrite blank_nnz in Hs. split; [|done]. unfold Drivers.csr_driver. rewrite HA. cbn [lift mbind prog_bind pbind]. cbn [Z.eqb negb use mbind outcome_bind].
    rewrite (coo_of_read_spec A B HB). cbn [mbind outcome_bind]. rewrite HM. cbn [lift mbind prog_bind pbind].
    eapply all_schedules_bind; [exact Hr|]. apply all_schedules_ret.
  Qed.
  Theorem C80_csr_driver name args F B : reads F name B -> csr_able B -> 0 < iterations ->
    succeeds B (csr_driver to_csr1 (name :: args) F) /\ succeeds B (csr_driver to_csr2 (name :: args) F).
  Proof.
    intros HR HB Hi. destruct (csr_computes (blank B) (blank_csr_able B HB)) as (A & B' & HA & H1 & H2 & _).
    split; [apply (csr_driver_spec to_csr1 name args F B (csr_bench A))|apply (csr_driver_spec to_csr2 name args F B (csr2_bench A))];
      try done; try by eapply computes_usable.
    - unfold to_csr1. by rewrite HA.
    - unfold to_csr2. by rewrite HA.
  Qed.
  (** no argument, or a file that the reader refuses: exit code 1, nothing printed *)
  Theorem C80_csr_errors convert : (forall F, csr_driver convert [] F = Ret (1%Z, [])) /\
    (forall name args F ret A, read_file F name = Ok (ret, A) -> ret <> 0%Z -> csr_driver convert (name :: args) F = Ret (1%Z, [])) /\
    (forall name args F, F !! name = None -> csr_driver convert (name :: args) F = Ret (1%Z, [])) /\
    (forall name args F, (~ exists p, name = p ++ str ".bin") -> (~ exists p, name = p ++ str ".mtx") -> csr_driver convert (name :: args) F = Ret (1%Z, [])).
  Proof.
    assert (Hgen : forall name args F ret A, read_file F name = Ok (ret, A) -> ret <> 0%Z -> csr_driver convert (name :: args) F = Ret (1%Z, [])).
    { intros name args F ret A HA Hr. unfold Drivers.csr_driver. rewrite HA. cbn [lift mbind prog_bind pbind].
      rewrite (proj2 (Z.eqb_neq ret 0) Hr). done. }
    split; [done|]. split; [exact Hgen|]. split.
    - intros name args F HF. eapply (Hgen _ _ _ (-1)%Z None); [|done]. unfold Drivers.read_file, read_COO. rewrite HF.
      by destruct (string_ends_with name (str ".bin")), (string_ends_with name (str ".mtx")).
    - intros name args F Hb Hm. eapply (Hgen _ _ _ (-1)%Z None); [|done]. unfold Drivers.read_file. by rewrite (proj2 (proj2 (C65_dispatch _ _ _ _)) Hb Hm).
  Qed.

  (** the width that cswr.cpp takes from its second argument: a decimal number, possibly
      followed by other characters; without the argument it is 32 *)
  Definition width_argument (w : nat) args : Prop :=
    (args = [] /\ w = 32) \/
    (exists t s, args = [t ++ s] /\ int_text (Z.of_nat w) t /\ (Z.of_nat w <= int_max)%Z /\ ends s /\ w < itW).
  Theorem C80_cswr_driver name args F B w : reads F name B -> width_argument w args -> 0 < w -> w <= sitW ->
    in_range (c_rows B) (c_cols B) (c_elems B) -> c_rows B + w + 1 < itW -> c_nnz B < itW -> 0 < iterations ->
    succeeds B (cswr_driver to_cswr (name :: args) F).
  Proof.
    intros (A & HA & HB) Hw W1 W2 H1 H2 H3 Hi.
    destruct (cswr_computes (blank B) w) as (M & B' & HM & HC); try done; [by apply blank_in_range|by rewrite blank_nnz|].
    destruct (C79_benchmark (cswr_bench M) (blank B) iterations (rand 0) (laps 0) [] (computes_usable _ _ _ HC) Hi) as (r & Hr & Hs).
    exists r. rewrite blank_nnz in Hs. split; [|done].
    assert (E : cswr_driver to_cswr (name :: args) F =
      (lift (read_file F name) ≫= fun '(ret, A) =>
       if negb (ret =? 0)%Z then Ret (1%Z, []) else
       lift (A ← use A; B ← coo_of_read A; to_cswr B w) ≫= fun M =>
       benchmark M iterations (rand 0) (laps 0) [] ≫= fun r => Ret (0%Z, [r]))).
    { destruct Hw as [[-> ->]|(t & s & -> & Ht & Hle & He & Hlt)]; [done|]. unfold Drivers.cswr_driver, atoi.
      pose proof (scan_d_int (Z.of_nat w) [] t s) as Hsc. cbn [app] in Hsc. rewrite Hsc; [|by constructor|done|split; unfold int_max in *; lia|done]. cbn [mbind outcome_bind lift prog_bind pbind].
      rewrite Z.mod_small by lia. by rewrite Nat2Z.id. }
    rewrite E, HA. cbn [lift mbind prog_bind pbind]. cbn [Z.eqb negb use mbind outcome_bind].
    rewrite (coo_of_read_spec A B HB). cbn [mbind outcome_bind]. unfold to_cswr. rewrite HM. cbn [lift mbind outcome_bind prog_bind pbind].
    eapply all_schedules_bind; [exact Hr|]. apply all_schedules_ret.
  Qed.
  (** a second argument that is no number, or 0, makes the conversion divide by zero *)
  Theorem C80_cswr_width_zero_refuted name F B t : reads F name B -> no_number t \/ (exists s s', t = s ++ s' /\ int_text 0 s /\ ends s') ->
    cswr_driver to_cswr [name; t] F = Fail (FUndef DivByZero).
  Proof.
    intros (A & HA & HB) Ht.
    assert (E : atoi t = Ok 0%Z).
    { unfold atoi. destruct Ht as [Hs|(s & s' & -> & Hs & He)].
      - pose proof (scan_d_stuck [] t) as Hsc. cbn [app] in Hsc. by rewrite Hsc by (by try constructor).
      - pose proof (scan_d_int 0 [] s s') as Hsc. cbn [app] in Hsc. rewrite Hsc; [done|by constructor|done| |done]. split; unfold int_max; lia. }
    unfold Drivers.cswr_driver. rewrite E. cbn [lift mbind outcome_bind prog_bind pbind]. rewrite HA. cbn [lift mbind prog_bind pbind]. cbn [Z.eqb negb use mbind outcome_bind].
    rewrite (coo_of_read_spec A B HB). cbn [mbind outcome_bind]. rewrite Zmod_0_l. done.
  Qed.
  Theorem C80_cswr_errors convert args F : (length args <> 1 /\ length args <> 2) \/ (exists name rest ret A, args = name :: rest /\ length rest <= 1 /\
      (forall t, rest = [t] -> exists z, atoi t = Ok z) /\ read_file F name = Ok (ret, A) /\ ret <> 0%Z) ->
    cswr_driver convert args F = Ret (1%Z, []).
  Proof.
    intros [[H1 H2]|(name & rest & ret & A & -> & Hl & Ht & HA & Hr)].
    - destruct args as [|a [|b [|c l]]]; done.
    - assert (Hz : (ret =? 0)%Z = false) by (by apply Z.eqb_neq). destruct rest as [|t [|? ?]]; [| |cbn in Hl; lia].
      + unfold Drivers.cswr_driver. cbn [lift mbind prog_bind pbind]. rewrite HA. cbn [lift mbind prog_bind pbind]. by rewrite Hz.
      + destruct (Ht t eq_refl) as [z Hzt]. unfold Drivers.cswr_driver. rewrite Hzt. cbn [lift mbind outcome_bind prog_bind pbind]. rewrite HA. cbn [lift mbind prog_bind pbind]. by rewrite Hz.
  Qed.

  (** *** C81: blocked.cpp.  The block size is the one C77 describes *)
  Definition picks rows cols (s : nat) : Prop := pick rows cols = Ok s.
  Definition sizes_ok B : Prop := (N.of_nat (c_rows B) < 2 ^ 32 /\ N.of_nat (c_cols B) < 2 ^ 32 /\ val_size <= 2 ^ 18)%N /\ (1 <= Z.of_nat workers < 2 ^ 28)%Z.
  Definition large B : Prop := big_enough (Z.of_nat workers) (N.of_nat (c_rows B)) /\ big_enough (Z.of_nat workers) (N.of_nat (c_cols B)).
  Theorem C81_picks B : sizes_ok B -> exists s, picks (c_rows B) (c_cols B) s /\ (s = 0 /\ ~ large B \/ 0 < s /\ (N.of_nat s <= 32768)%N /\ s < c_rows B /\ s < c_cols B /\ large B).
  Proof.
    intros ((S1 & S2 & S3) & S4). destruct (C04_pick_block_size 64 (logbeta (c_rows B) (c_cols B)) (N.of_nat (c_rows B)) (N.of_nat (c_cols B)) val_size (Z.of_nat workers) S1 S2 S3 S4 ltac:(lia)) as (s & Hs & Hc).
    exists (N.to_nat s). split; [unfold picks, Drivers.pick; by rewrite Hs|].
    destruct Hc as [[-> Hn]|(L1 & L2 & e & He & Hr & Hcl)]; [by left|right].
    assert (Hnz : s <> 0%N) by (rewrite He; apply N.pow_nonzero; done).
    destruct (C77_constraints 64 (logbeta (c_rows B) (c_cols B)) _ _ val_size (Z.of_nat workers) s S1 S2 S3 S4 ltac:(lia) Hs Hnz) as (C1 & _).
    unfold large. clear -Hnz C1 Hr Hcl L1 L2. split; [lia|]. split; [lia|]. split; [lia|]. split; [lia|done].
  Qed.

  Section blocked.
    Context (choose : nat -> nat -> nat -> kind) (bal : nat -> nat -> list (list nat) -> bool) (choose2 : list (elem T) -> nat -> nat -> kind2) (balanced : bool).
    Notation csbr_d := (blocked_driver (to_csbr workers) (to_csbr_off workers)).
    Notation csbr2_d := (blocked_driver to_csbr2 to_csbr2_off).
    Notation cgbr_d := (blocked_driver (to_cgbr workers choose bal) (to_cgbr_off workers choose bal)).
    Notation cgbr2_d := (blocked_driver (to_cgbr2 workers choose2 balanced) (to_cgbr2_off workers choose2 balanced)).

    Lemma blocked_driver_read convert convert_off name args F B : reads F name B -> args = [] \/ length args = 2 ->
      blocked_driver convert convert_off (name :: args) F =
      (lift (beta ← pick (c_rows B) (c_cols B); M ← convert (blank B) beta beta; Ok (Some M)) ≫= fun M =>
       match M with None => Ret (1%Z, []) | Some M => benchmark M iterations (rand 0) (laps 0) [] ≫= fun r => Ret (0%Z, [r]) end).
    Proof.
      intros (A & HA & HB) Hargs. destruct Hargs as [->|Hl]; [|destruct args as [|a1 [|a2 [|? ?]]]; try done].
      all: unfold Drivers.blocked_driver; cbn [length Nat.eqb negb andb nth]; rewrite HA; cbn [lift mbind prog_bind pbind]; cbn [Z.ltb Z.compare use mbind outcome_bind];
        rewrite (coo_of_read_spec A B HB); cbn [lift mbind prog_bind pbind]; done.
    Qed.
    Lemma blocked_driver_spec convert convert_off name args F B s M : reads F name B -> args = [] \/ length args = 2 -> picks (c_rows B) (c_cols B) s ->
      convert (blank B) s s = Ok M -> usable M (blank B) -> 0 < iterations -> succeeds B (blocked_driver convert convert_off (name :: args) F).
    Proof.
      intros HR Hargs Hp HM HU Hi. destruct (C79_benchmark M (blank B) iterations (rand 0) (laps 0) [] HU Hi) as (r & Hr & Hs).
      exists r. rewrite blank_nnz in Hs. split; [|done]. rewrite (blocked_driver_read _ _ name args F B) by done. rewrite Hp. cbn [mbind outcome_bind]. rewrite HM.
      cbn [lift mbind outcome_bind prog_bind pbind]. eapply all_schedules_bind; [exact Hr|]. apply all_schedules_ret.
    Qed.
    Theorem C81_blocked_drivers name args F B s : reads F name B -> args = [] \/ length args = 2 -> picks (c_rows B) (c_cols B) s ->
      const_able B s workers -> 0 < iterations ->
      succeeds B (csbr_d (name :: args) F) /\ succeeds B (csbr2_d (name :: args) F) /\
      (short_able s -> succeeds B (cgbr_d (name :: args) F) /\ succeeds B (cgbr2_d (name :: args) F)).
    Proof.
      intros HR Hargs Hp Ha Hi. apply blank_const_able in Ha. split; [|split].
      - destruct (csbr_computes (blank B) s workers Ha) as (A & parts & B' & HA & HC).
        eapply (blocked_driver_spec _ _ name args F B s); [done|done|done| |by eapply computes_usable|done]. unfold to_csbr. by rewrite HA.
      - destruct (csbr2_computes (blank B) s workers Ha) as (A & B' & HA & HC).
        eapply (blocked_driver_spec _ _ name args F B s); [done|done|done| |by eapply computes_usable|done]. unfold to_csbr2. by rewrite HA.
      - intros Hsh. split.
        + destruct (cgbr_usable choose bal (blank B) s workers Ha Hsh) as (A & bl & parts & B' & HA & HC).
          eapply (blocked_driver_spec _ _ name args F B s); [done|done|done| |exact HC|done]. unfold to_cgbr. by rewrite HA.
        + destruct (cgbr2_usable choose2 balanced (blank B) s workers Ha Hsh) as (A & parts & B' & HA & HC).
          eapply (blocked_driver_spec _ _ name args F B s); [done|done|done| |exact HC|done]. unfold to_cgbr2. by rewrite HA.
    Qed.
    (** 16-bit short indices always suffice for the size that is picked *)
    Theorem C81_short_indices_suffice B s : sizes_ok B -> picks (c_rows B) (c_cols B) s -> short_type ->
      (65536 <= N.of_nat sitW)%N -> (2 ^ 32 <= N.of_nat itW)%N -> short_able s.
    Proof.
      intros Hs Hp Hst H1 H2. destruct (C81_picks B Hs) as (s' & Hp' & Hc). unfold picks in *. rewrite Hp in Hp'. injection Hp' as <-.
      assert (Hle : (N.of_nat s <= 32768)%N) by (destruct Hc as [[-> _]|(_ & ? & _)]; [done|done]).
      split; [lia|]. split; [|done]. assert (Hq : (N.of_nat (2 * s) <= 65536)%N) by lia.
      assert (Hsq : (N.of_nat (2 * s) * N.of_nat (2 * s) <= 65536 * 65536)%N) by (by apply N.mul_le_mono).
      change (65536 * 65536)%N with (2 ^ 32)%N in Hsq. rewrite <- Nat2N.inj_mul in Hsq. clear -Hsq H2. lia.
    Qed.
    Lemma const_offsets_0 (dim : nat) : const_offsets dim 0 = Undef DivByZero.
    Proof. done. Qed.
    (** a matrix with a dimension that is too small for the number of threads: division by zero *)
    Theorem C81_small_matrix_refuted name args F B : reads F name B -> args = [] \/ length args = 2 -> sizes_ok B -> ~ large B ->
      csbr_d (name :: args) F = Fail (FUndef DivByZero) /\ csbr2_d (name :: args) F = Fail (FUndef DivByZero) /\
      cgbr_d (name :: args) F = Fail (FUndef DivByZero) /\ cgbr2_d (name :: args) F = Fail (FUndef DivByZero).
    Proof.
      intros HR Hargs Hs Hn. destruct (C81_picks B Hs) as (s & Hp & [[-> _]|(_ & _ & _ & _ & Hl)]); [|done].
      rewrite !(blocked_driver_read _ _ name args F B) by done. rewrite Hp. cbn [mbind outcome_bind].
      unfold to_csbr, to_csbr2, to_cgbr, to_cgbr2, Coo_to_Csbr_const, Coo_to_Csbr2_const, Coo_to_Cgbr_const, Coo_to_Cgbr2_const. rewrite !const_offsets_0. done.
    Qed.
    Theorem C81_errors convert convert_off args F : (length args <> 1 /\ length args <> 3) \/ (exists ret A, read_file F (nth 0 args []) = Ok (ret, A) /\ (ret < 0)%Z) ->
      blocked_driver convert convert_off args F = Ret (1%Z, []).
    Proof.
      intros Ha. unfold Drivers.blocked_driver. destruct (negb (S (length args) =? 2) && negb (S (length args) =? 4)) eqn:E; [done|].
      destruct Ha as [[H1 H2]|(ret & A & HA & Hr)].
      - rewrite (proj2 (Nat.eqb_neq _ 2)), (proj2 (Nat.eqb_neq _ 4)) in E by lia. done.
      - rewrite HA. cbn [lift mbind prog_bind pbind]. rewrite (proj2 (Z.ltb_lt ret 0) Hr). done.
    Qed.
    (** *** C82: the two files with block sizes that the usage message offers are never looked at *)
    Theorem C82_block_size_files_ignored_refuted convert convert_off name rows_file cols_file F :
      blocked_driver convert convert_off [name; rows_file; cols_file] F = blocked_driver convert convert_off [name] F /\
      (forall convert_off', blocked_driver convert convert_off [name; rows_file; cols_file] F = blocked_driver convert convert_off' [name; rows_file; cols_file] F) /\
      (forall args, length args = 4 -> blocked_driver convert convert_off args F = Ret (1%Z, [])).
    Proof. split; [done|]. split; [done|]. intros args Hl. apply C81_errors. left. lia. Qed.
  End blocked.

  (** *** C83: bench.cpp and pbench.cpp: CSR and then Cgbr2 from the same source *)
  Definition succeeds2 B (p : prog T (Z * list report)) : Prop :=
    exists r1 r2, all_schedules p ∅ (0%Z, [r1; r2]) ∅ /\ summary (c_nnz B) (laps 0 <$> seq 0 iterations) r1 /\ summary (c_nnz B) (laps 1 <$> seq 0 iterations) r2.
  Lemma permuted_const_able B B' s : c_rows B' = c_rows B -> c_cols B' = c_cols B -> c_elems B' ≡ₚ c_elems B -> const_able B s workers -> const_able B' s workers.
  Proof.
    intros E1 E2 E3 (H1 & H2 & H3 & H4 & H5 & H6 & H7). unfold const_able, workers_ok, c_nnz in *. rewrite E1, E2. split; [done|].
    split; [intros E; rewrite E in E3; apply Permutation_nil in E3; done|]. split; [unfold in_range; by rewrite E3|]. rewrite E3. done.
  Qed.
  Lemma two_benchmarks_spec choose2 balanced B s : const_able B s workers -> short_able s -> 0 < iterations ->
    succeeds2 B (two_benchmarks iterations rand laps to_csr (to_cgbr2 workers choose2 balanced) B s).
  Proof.
    intros Ha Hsh Hi. pose proof Ha as (H1 & H2 & H3 & H4 & H5 & H6 & (W1 & W2 & W3)).
    destruct (csr_computes B) as (A & B' & HA & HC & _ & D1 & D2 & D3). { split; [done|]. split; lia. }
    pose proof (permuted_const_able B B' s D1 D2 D3 Ha) as Ha'.
    destruct (cgbr2_usable choose2 balanced B' s workers Ha' Hsh) as (G & parts & B2 & HG & HU).
    destruct (C79_benchmark (csr_bench A) B iterations (rand 0) (laps 0) [] (computes_usable _ _ _ HC) Hi) as (r1 & R1 & S1).
    destruct (C79_benchmark (cgbr2_bench G balanced parts) B' iterations (rand 1) (laps 1) [] HU Hi) as (r2 & R2 & S2).
    exists r1, r2. split.
    - unfold two_benchmarks, to_csr. rewrite HA. cbn [lift mbind outcome_bind prog_bind pbind].
      eapply all_schedules_bind; [exact R1|]. unfold to_cgbr2. rewrite HG. cbn [lift mbind outcome_bind prog_bind pbind].
      eapply all_schedules_bind; [exact R2|]. apply all_schedules_ret.
    - split; [done|]. unfold c_nnz in *. by rewrite D3 in S2.
  Qed.
  Theorem C83_bench_driver choose2 balanced name F B s : reads F name B -> picks (c_rows B) (c_cols B) s -> const_able B s workers -> short_able s -> 0 < iterations ->
    succeeds2 B (bench_driver to_csr (to_cgbr2 workers choose2 balanced) [name] F).
  Proof.
    intros (A & HA & HB) Hp Ha Hsh Hi. apply blank_const_able in Ha. unfold Drivers.bench_driver. rewrite HA. cbn [lift mbind prog_bind pbind]. cbn [Z.ltb Z.compare use mbind outcome_bind].
    rewrite (coo_of_read_spec A B HB). cbn [mbind outcome_bind]. change (c_rows (blank B)) with (c_rows B). change (c_cols (blank B)) with (c_cols B). rewrite Hp. cbn [lift mbind outcome_bind prog_bind pbind].
    destruct (two_benchmarks_spec choose2 balanced (blank B) s Ha Hsh Hi) as (r1 & r2 & Hr). rewrite blank_nnz in Hr. by exists r1, r2.
  Qed.
  (** pbench.cpp does the same with the matrix P A P^T, where P moves i to the place where the
      file lists i *)
  Theorem C83_pbench_driver choose2 balanced name perm fp F B s : index_bytes k -> reads F name B -> c_rows B = c_cols B -> picks (c_rows B) (c_cols B) s ->
    const_able B s workers -> short_able s -> 0 < iterations ->
    F !! perm = Some fp -> items (index_repr k) fp ≡ₚ seq 0 (c_rows B) ->
    succeeds2 B (pbench_driver to_csr (to_cgbr2 workers choose2 balanced) [name; perm] F) /\
    exists E', Forall2 (fun e e' => items (index_repr k) fp !! row e' = Some (row e) /\ items (index_repr k) fp !! col e' = Some (col e) /\ val e' = val e) (c_elems B) E' /\
      pbench_driver to_csr (to_cgbr2 workers choose2 balanced) [name; perm] F =
      two_benchmarks iterations rand laps to_csr (to_cgbr2 workers choose2 balanced) (Coo (c_rows B) (c_cols B) E') s.
  Proof.
    intros Hk (A & HA & HB) Hsq Hp Ha Hsh Hi Fp Hperm. pose proof Hk as [Hk0 _]. set (p := items (index_repr k) fp) in *. set (n := c_rows B) in *.
    pose proof Ha as (H1 & H2 & H3 & H4 & H5 & H6 & HW). fold n in H3, H4, H6. rewrite <- Hsq in H3, H6.
    assert (Hlen : length p = n) by (by rewrite Hperm, seq_length).
    set (q := inverse p n). pose proof (inverse_perm p n Hperm) as Hq. fold q in Hq.
    set (E' := relabel q <$> c_elems (blank B)).
    assert (Hl : forall e, e ∈ c_elems B -> exists r c, q !! row e = Some r /\ r < n /\ q !! col e = Some c /\ c < n /\ p !! r = Some (row e) /\ p !! c = Some (col e)).
    { intros e He. unfold in_range in H3. rewrite Forall_forall in H3. destruct (H3 e He) as [L1 L2].
      destruct (perm_onto p n _ Hperm L1) as (r & Hr & Hrn). destruct (perm_onto p n _ Hperm L2) as (c & Hc & Hcn).
      exists r, c. split; [by apply inverse_lookup|]. split; [done|]. split; [by apply inverse_lookup|]. done. }
    assert (Erun : pbench_driver to_csr (to_cgbr2 workers choose2 balanced) [name; perm] F =
      two_benchmarks iterations rand laps to_csr (to_cgbr2 workers choose2 balanced) (Coo n (c_cols B) E') s).
    { unfold Drivers.pbench_driver. rewrite HA. cbn [lift mbind prog_bind pbind]. cbn [Z.ltb Z.compare use mbind outcome_bind].
      rewrite (coo_of_read_spec A B HB). cbn [mbind outcome_bind]. change (c_rows (blank B)) with n. change (c_cols (blank B)) with (c_cols B). rewrite Hp. cbn [lift mbind outcome_bind prog_bind pbind].
      rewrite Fp, read_array_items by done. fold p. cbn [lift mbind outcome_bind prog_bind pbind]. cbn [Z.ltb Z.compare].
      rewrite whole_full. cbn [mbind outcome_bind]. rewrite Hlen, wrap_small by lia.
      rewrite (run_is_a_schedule _ _ _ _ (settles_all _ _ _ (invert_settles [false] _ _ Hperm))). cbn [mbind outcome_bind].
      pose proof (read_back_heap_of [false] (inverse p n)) as Hrb. rewrite inverse_length in Hrb. rewrite Hrb. cbn [mbind outcome_bind]. fold q.
      rewrite (par_do_spec _ _ E' tt).
      2: by (unfold E'; rewrite fmap_length).
      2:{ apply settles_all. unfold c_nnz. apply permute_matrix_settles; [unfold E'; by rewrite fmap_length|]. intros i e e' He He'.
          unfold E' in He'. rewrite list_lookup_fmap, He in He'. injection He' as <-. unfold blank in He. cbn [c_elems] in He. rewrite list_lookup_fmap in He.
          destruct (c_elems B !! i) as [e0|] eqn:He0; [|done]. injection He as <-. destruct (Hl e0) as (r & c & Hr & _ & Hc & _); [by eapply elem_of_list_lookup_2|].
          unfold relabel. cbn [row col val blk]. by rewrite Hr, Hc. }
      cbn [lift mbind outcome_bind prog_bind pbind]. done. }
    split; [|exists E'; split; [|exact Erun]].
    - rewrite Erun. assert (Hn' : length E' = c_nnz B) by (unfold E', blank; cbn [c_elems]; by rewrite !fmap_length).
      assert (Ha' : const_able (Coo n (c_cols B) E') s workers).
      { unfold const_able, workers_ok, c_nnz. cbn [c_rows c_cols c_elems]. rewrite Hn'. split; [done|]. split.
        { intros E0. rewrite E0 in Hn'. unfold c_nnz in Hn'. destruct (c_elems B); done. }
        split; [|rewrite <- Hsq in *; done]. rewrite <- Hsq. fold n. apply Forall_forall. intros e' He'. unfold E' in He'.
        apply elem_of_list_fmap in He' as (e & -> & He). unfold blank in He. cbn [c_elems] in He. apply elem_of_list_fmap in He as (e0 & -> & He0).
        destruct (Hl e0 He0) as (r & c & Hr & Hrn & Hc & Hcn & _). unfold relabel. cbn [row col]. rewrite Hr, Hc. done. }
      destruct (two_benchmarks_spec choose2 balanced _ s Ha' Hsh Hi) as (r1 & r2 & Hr & S1 & S2). exists r1, r2. split; [exact Hr|].
      unfold c_nnz at 1 in S1. unfold c_nnz at 1 in S2. cbn [c_elems] in S1, S2. rewrite Hn' in S1, S2. done.
    - apply Forall2_same_length_lookup. split; [unfold E', blank; cbn [c_elems]; by rewrite !fmap_length|]. intros i e e' He He'.
      unfold E', blank in He'. cbn [c_elems] in He'. rewrite !list_lookup_fmap, He in He'. injection He' as <-.
      destruct (Hl e) as (r & c & Hr & _ & Hc & _ & P1 & P2); [by eapply elem_of_list_lookup_2|]. unfold relabel. cbn [row col val]. by rewrite Hr, Hc.
  Qed.
  Theorem C83_errors to_csr to_gsb F :
    (forall args, length args <> 1 -> bench_driver to_csr to_gsb args F = Ret (1%Z, [])) /\
    (forall args, length args <> 2 -> pbench_driver to_csr to_gsb args F = Ret (1%Z, [])) /\
    (forall name perm ret A, read_file F name = Ok (ret, A) -> (ret < 0)%Z ->
       bench_driver to_csr to_gsb [name] F = Ret (1%Z, []) /\ pbench_driver to_csr to_gsb [name; perm] F = Ret (1%Z, [])) /\
    (forall name perm B s, reads F name B -> picks (c_rows B) (c_cols B) s -> F !! perm = None -> pbench_driver to_csr to_gsb [name; perm] F = Fail FAbort).
  Proof.
    split; [intros [|a [|b l]]; done|]. split; [intros [|a [|b [|c l]]]; done|]. split.
    - intros name perm ret A HA Hr. unfold Drivers.bench_driver, Drivers.pbench_driver. rewrite HA. cbn [lift mbind prog_bind pbind]. by rewrite (proj2 (Z.ltb_lt ret 0) Hr).
    - intros name perm B s (A & HA & HB) Hp HF. unfold Drivers.pbench_driver. rewrite HA. cbn [lift mbind prog_bind pbind]. cbn [Z.ltb Z.compare use mbind outcome_bind].
      rewrite (coo_of_read_spec A B HB). cbn [mbind outcome_bind]. change (c_rows (blank B)) with (c_rows B). change (c_cols (blank B)) with (c_cols B). rewrite Hp. cbn [lift mbind outcome_bind prog_bind pbind].
      rewrite HF. done.
  Qed.
End drivers.

(** A 5 x 5 matrix with 1-byte indices, from a file, on one thread: everything above applies. *)
Definition ex_D : coo Z := Coo 5 5 [Elem 3 0 5 0; Elem 0 2 2 0; Elem 1 1 1 0; Elem 0 2 3 0; Elem 4 4 9 0]%Z.
Definition ex_fs80 : fs := <[str "m.bin" := write_bin_COO ex_RZ 1 ex_D]> {[str "p" := [2; 0; 1; 4; 3]]}.
Definition ex_scan : bytes -> option Z * bytes := fun s => (None, s).
Example C80_C83_ex :
  @index_bytes ex_W16 1 /\ storable ex_RZ /\ @fits ex_W16 Z ex_D /\
  @reads Z ex_W16 ex_RZ 1 ex_scan ex_fs80 (str "m.bin") ex_D /\ @csr_able Z ex_W16 ex_D /\
  @picks 1 (fun _ _ => 1%N) 4 5 5 2 /\ sizes_ok 1 4 ex_D /\ large 1 ex_D /\ @const_able Z ex_W16 ex_D 2 1 /\ @short_able ex_W16 2 /\
  items (index_repr 1) [2; 0; 1; 4; 3] ≡ₚ seq 0 (c_rows ex_D) /\ ~ large 1 (Coo 2 5 [Elem 1 1 1 0] : coo Z)%Z.
Proof.
  split; [split; [lia|done]|]. split; [exact ex_RZ_storable|].
  assert (Hf : @fits ex_W16 Z ex_D) by (vm_compute; repeat split; try lia; repeat constructor; lia).
  split; [exact Hf|]. split.
  { apply C80_reads_bin; [split; [lia|done]|exact ex_RZ_storable|exact Hf|by exists (str "m")|done]. }
  split; [vm_compute; repeat split; try lia; repeat constructor; lia|].
  split; [by vm_compute|]. split; [vm_compute; repeat split; intros; discriminate|].
  split; [vm_compute; repeat split; try done; intros; discriminate|].
  split; [vm_compute; repeat split; try lia; try done; repeat constructor; lia|].
  split; [split; [cbn; lia|split; [cbn; lia|right; split; cbn; lia]]|]. split; [exact ex_perm5|]. vm_compute. intros [[? ?] _]. discriminate.
Qed.
(** ... and, run one iteration after the other, the drivers print this *)
Definition ex_laps (m i : nat) : Z := nth i (if m =? 0 then [7%Z; 4%Z; 9%Z] else [2%Z; 2%Z; 1%Z]) 0%Z.
Definition shown (m : outcome (Z * list report * heap Z)) : outcome (Z * list report * bool) := '(r, h) ← m; Ok (r, bool_decide (h = ∅)).
Example C80_C83_run :
  shown (run (@csr_driver Z _ ex_W16 ex_RZ 1 ex_scan 3 (fun _ i => Z.of_nat i) ex_laps (@to_csr2 Z _ ex_W16) [str "m.bin"] ex_fs80) ∅)
  = Ok ((0%Z, [Report 5 4 7 (20 # 3) 9]), true) /\
  shown (run (@pbench_driver Z _ ex_W16 ex_RZ 1 ex_scan 3 (fun _ i => Z.of_nat i) ex_laps 1 (fun _ _ => 1%N) 4
    (@to_csr Z _ ex_W16) (@to_cgbr2 Z _ ex_W16 1 (fun _ _ _ => K2Coo) true) [str "m.bin"; str "p"] ex_fs80) ∅)
  = Ok ((0%Z, [Report 5 4 7 (20 # 3) 9; Report 5 1 2 (5 # 3) 2]), true).
Proof. vm_compute. split; reflexivity. Qed.
