(** Properties_Cgbr.v: C33, C34, C42, C43, the matrices whose blocks have different formats.
    [all_schedules], [heap_of]: see Properties_Simple.v; [blockable], [workers_ok]: see
    Properties_Blocked.v. *)
From Verif Require Import DenseProof Cgbr3Proof Properties_Utils Properties_Simple Properties_Blocked Properties_Reuse.
From Coq Require Import ZifyNat ZifyBool.

(** block row br has [block_rows roff br] rows; block column bc has [block_rows coff bc] columns;
    [submatrix roff br coff bc E]: the elements of block (br, bc), from its first row and
    column (Cgbr2Proof.v) *)
Definition short_blocks `{Widths} (roff : list nat) (nbr : nat) (coff : list nat) (nbc : nat) : Prop :=
  (forall br, br < nbr -> block_rows roff br <= sitW) /\ (forall bc, bc < nbc -> block_rows coff bc <= sitW).
(** the short index type is the index type, or is narrower than it and than an int *)
Definition short_type `{Widths} : Prop := itW <= sitW \/ (sitW < itW /\ (N.of_nat sitW < 2147483648)%N).

Section C33_C43.
  Context {T : Type} `{Scalar T} `{Widths}.
  Implicit Types (B : coo T) (E L : list (elem T)) (x y : list T) (b : buf) (roff coff : list nat).

  (** P holds of every block stored as dense: of its rows, columns and elements.  The choice
      Cgbr makes sees rows, columns and number of elements; a Cgbr2 factory sees the elements,
      in whatever order. *)
  Definition dense_blocks (choose : nat -> nat -> nat -> kind) B roff nbr coff nbc (P : nat -> nat -> list (elem T) -> Prop) : Prop :=
    forall br bc, br < nbr -> bc < nbc ->
      let L := submatrix roff br coff bc (c_elems B) in
      choose (block_rows roff br) (block_rows coff bc) (length L) = KDense -> P (block_rows roff br) (block_rows coff bc) L.
  Definition dense_blocks2 (choose : list (elem T) -> nat -> nat -> kind2) B roff nbr coff nbc (P : nat -> nat -> list (elem T) -> Prop) : Prop :=
    forall br bc L, br < nbr -> bc < nbc -> same_elements L (submatrix roff br coff bc (c_elems B)) ->
      choose L (block_rows roff br) (block_rows coff bc) = K2Dense -> P (block_rows roff br) (block_rows coff bc) L.
  (** the size of a dense block can be computed *)
  Definition small (rows cols : nat) L : Prop := rows * cols < itW.
  Definition small_distinct (rows cols : nat) L : Prop := rows * cols < itW /\ distinct_coords L.

  Lemma kind_dec (k : kind) : k = KDense \/ ~ k = KDense. Proof. destruct k; auto. Qed.
  Lemma kind2_dec (k : kind2) : k = K2Dense \/ ~ k = K2Dense. Proof. destruct k; auto. Qed.

  Section made.
    Context (rows cols : nat) E roff (nbr : nat) coff (nbc : nat).
    Context (HB : blockable (Coo rows cols E) roff nbr coff nbc) (Hsh : short_blocks roff nbr coff nbc) (Hst : short_type).
    Notation I := (bids roff nbr coff nbc E).
    Notation local := (local roff nbr coff nbc E).
    Lemma block_facts id : id ∈ I -> id / nbc < nbr /\ id mod nbc < nbc /\ same_elements (local id) (submatrix roff (id / nbc) coff (id mod nbc) E) /\
      rsz roff nbc id = block_rows roff (id / nbc) /\ csz coff nbc id = block_rows coff (id mod nbc) /\
      in_range (rsz roff nbc id) (csz coff nbc id) (local id) /\ ksorted row (local id) /\ rsz roff nbc id <= sitW /\ csz coff nbc id <= sitW /\
      rsz roff nbc id + 1 < itW /\ length (local id) < itW /\ 0 < csz coff nbc id /\ length (local id) = length (submatrix roff (id / nbc) coff (id mod nbc) E).
    Proof.
      destruct HB as (Hne & HE & Hr & Hc & H1 & H2 & H3 & H4 & H5 & H6). unfold c_nnz in *. cbn [c_rows c_cols c_elems] in *.
      intros Hid. destruct (bids_range _ _ _ _ _ _ _ Hr Hc HE id Hid) as (_ & D1 & D2 & D3).
      destruct (geometry_range _ _ _ _ _ _ _ Hr Hc HE id Hid) as (G1 & G2 & _).
      assert (Hs : same_elements (local id) (submatrix roff (id / nbc) coff (id mod nbc) E)) by (by eapply at_block_submatrix).
      assert (Hlen : length (local id) = length (submatrix roff (id / nbc) coff (id mod nbc) E)).
      { unfold same_elements in Hs. apply Permutation_length in Hs. by rewrite !fmap_length in Hs. }
      pose proof (loc_range _ _ _ _ _ _ _ Hr Hc HE id Hid) as Hlr.
      assert (Hpos : 0 < csz coff nbc id).
      { apply bids_elem in Hid as (e & He & Hb). unfold CgbrProof.local. rewrite Forall_fmap, Forall_forall in Hlr.
        assert (e ∈ blocks_at roff nbr coff nbc E id) as Hin.
        { unfold blocks_at, group. apply elem_of_list_In, filter_In. split; [by apply elem_of_list_In|]. unfold has. by rewrite Hb, Nat.eqb_refl. }
        apply Hlr in Hin. cbn in Hin. lia. }
      split; [done|]. split; [done|]. split; [done|]. split; [done|]. split; [done|]. split; [exact Hlr|]. split; [apply blocks_at_sorted|].
      destruct Hsh as [S1 S2]. split; [by apply S1|]. split; [by apply S2|]. split; [lia|]. split; [|by split].
      unfold CgbrProof.local. rewrite fmap_length. pose proof (group_length blk id (bsorted roff nbr coff nbc E)) as Hgl.
      rewrite bsorted_length in Hgl. unfold blocks_at. lia.
    Qed.
    Lemma makes1 choose : dense_blocks choose (Coo rows cols E) roff nbr coff nbc small ->
      forall id, id ∈ I -> exists (M : gblock T) ty L, makes (make_block choose) tag1 (local id) (rsz roff nbc id) (csz coff nbc id) M ty L /\
        (~ choose (rsz roff nbc id) (csz coff nbc id) (length (local id)) = KDense -> ~ is_dense (gb_mat M)).
    Proof.
      intros Hd id Hid. destruct (block_facts id Hid) as (F1 & F2 & F3 & F4 & F5 & F6 & F7 & F8 & F9 & F10 & F11 & F12 & F13).
      destruct (make_block_makes (local id) _ _ F6 F7 F8 F9 F10 F11 choose) as (M & ty & L & HM & HD); [done|exact Hst| |].
      - intros Hk. rewrite F13, F4, F5 in Hk. apply (Hd _ _ F1 F2) in Hk. by rewrite F4, F5.
      - exists M, ty, L. split; [done|]. intros Hk. specialize (HD Hk). unfold is_dense. destruct (gb_mat M); [by intros []..|done].
    Qed.
    Lemma makes2 choose : dense_blocks2 choose (Coo rows cols E) roff nbr coff nbc small ->
      forall id, id ∈ I -> exists (M : gblock T) ty L, makes (make_block2 choose) tag2 (local id) (rsz roff nbc id) (csz coff nbc id) M ty L /\
        (~ choose (local id) (rsz roff nbc id) (csz coff nbc id) = K2Dense -> ~ is_dense (gb_mat M)).
    Proof.
      intros Hd id Hid. destruct (block_facts id Hid) as (F1 & F2 & F3 & F4 & F5 & F6 & F7 & F8 & F9 & F10 & F11 & F12 & F13).
      destruct (make_block2_makes (local id) _ _ F6 F7 F8 F9 F10 F11 choose) as (M & ty & L & HM & HD).
      - intros Hk. rewrite F4, F5 in Hk. apply (Hd _ _ _ F1 F2 F3) in Hk. by rewrite F4, F5.
      - exists M, ty, L. split; [done|]. intros Hk. specialize (HD Hk). unfold is_dense. destruct (gb_mat M); [by intros []..|done].
    Qed.
  End made.
  Lemma dense_blocks_weaken choose B roff nbr coff nbc : dense_blocks choose B roff nbr coff nbc small_distinct -> dense_blocks choose B roff nbr coff nbc small.
  Proof. intros Hd br bc H1 H2 L Hk. by apply (Hd br bc H1 H2 Hk). Qed.
  Lemma dense_blocks2_weaken choose B roff nbr coff nbc : dense_blocks2 choose B roff nbr coff nbc small_distinct -> dense_blocks2 choose B roff nbr coff nbc small.
  Proof. intros Hd br bc L H1 H2 H3 Hk. by apply (Hd br bc L H1 H2 H3 Hk). Qed.

  (** ** C33 *)
  Theorem C33_cgbr_spmv (choose : nat -> nat -> nat -> kind) bal B roff nbr coff nbc workers x y b (one : T) : exact_arith T one ->
    blockable B roff nbr coff nbc -> workers_ok B workers -> short_type -> short_blocks roff nbr coff nbc ->
    dense_blocks choose B roff nbr coff nbc small_distinct ->
    c_cols B <= length x -> length y = c_rows B ->
    exists A balanced parts B', Coo_to_Cgbr choose bal workers B (full roff) nbr (full coff) nbc = Ok (A, balanced, parts, B') /\
      all_schedules (cgbr_spmv A balanced parts x b) (heap_of b y) tt (heap_of b (y_plus_Ax (c_elems B) (c_cols B) x y)) /\
      all_schedules (cgbr_spmv_serial A x b) (heap_of b y) tt (heap_of b (y_plus_Ax (c_elems B) (c_cols B) x y)).
  Proof.
    destruct B as [rows cols E]. intros SR HB (W1 & W2 & W3) Hst Hsh Hd Hx Hy.
    pose proof (makes1 rows cols E roff nbr coff nbc HB Hsh Hst choose (dense_blocks_weaken _ _ _ _ _ _ Hd)) as Hmk.
    pose proof HB as (Hne & HE & Hr & Hc & H1 & H2 & H3 & H4 & H5 & H6). unfold c_nnz in *. cbn [c_rows c_cols c_elems] in *.
    destruct (Coo_to_Cgbr_spec roff nbr rows coff nbc cols E Hr Hc HE Hne H1 H2 H3 H4 H5 H6 (make_block choose) tag1 _ Hmk choose bal workers eq_refl W1 W2 W3)
      as (parts & HA & Hg). cbv zeta in HA, Hg. match type of HA with _ = Ok (_, ?v, _, _) => set (balanced := v) in * end.
    eexists _, balanced, parts, _. split; [exact HA|].
    assert (Hdist : forall id, id ∈ bids roff nbr coff nbc E ->
      choose (rsz roff nbc id) (csz coff nbc id) (length (local roff nbr coff nbc E id)) = KDense -> distinct_coords (local roff nbr coff nbc E id)).
    { intros id Hid Hk. destruct (block_facts rows cols E roff nbr coff nbc HB Hsh id Hid) as (F1 & F2 & F3 & F4 & F5 & _ & _ & _ & _ & _ & _ & _ & F13).
      rewrite F13, F4, F5 in Hk. apply (Hd _ _ F1 F2) in Hk as [_ Hk]. eapply same_elements_distinct; [|exact Hk]. unfold same_elements in *. by symmetry. }
    assert (Hrow : forall x y, length y = rows -> imap (row_val roff nbr coff nbc E (make_block choose) x) y = y_plus_Ax E cols x y).
    { intros x' y' Hy'. eapply (row_val_exact roff nbr rows coff nbc cols E Hr Hc HE H1 H2 H4 H5 H6 (make_block choose) tag1 _ Hmk one SR Hdist); [|done].
      intros id. apply kind_dec. }
    split; [|rewrite <- Hrow by done; eapply matrix_serial; first [exact Hmk|exact Hg|by apply Hg|done]].
    unfold cgbr_spmv. destruct balanced.
    - rewrite <- Hrow by done. eapply matrix_balanced; first [exact Hmk|exact Hg|by apply Hg|done].
    - specialize (Hg eq_refl). assert (Hch : imap (chunked_val roff nbr coff nbc E (make_block choose) x parts) y = y_plus_Ax E cols x y).
      { eapply (chunked_val_exact roff nbr rows coff nbc cols E Hr Hc HE H1 H2 H4 H5 H6 (make_block choose) tag1 _ Hmk one SR Hdist); [|done|done].
        intros id. apply kind_dec. }
      rewrite <- Hch. eapply matrix_unbalanced; first [exact Hmk|exact Hg|by apply Hg|done].
  Qed.
  (** with any value arithmetic, and duplicates in dense blocks: construction succeeds and the
      result does not depend on the schedule; the serial kernel agrees with the parallel one
      for a balanced matrix *)
  Theorem C33_cgbr_deterministic (choose : nat -> nat -> nat -> kind) bal B roff nbr coff nbc workers :
    blockable B roff nbr coff nbc -> workers_ok B workers -> short_type -> short_blocks roff nbr coff nbc ->
    dense_blocks choose B roff nbr coff nbc small ->
    exists A balanced parts B', Coo_to_Cgbr choose bal workers B (full roff) nbr (full coff) nbc = Ok (A, balanced, parts, B') /\
      forall x y b, c_cols B <= length x -> length y = c_rows B -> exists y1 y2,
        all_schedules (cgbr_spmv A balanced parts x b) (heap_of b y) tt (heap_of b y1) /\
        all_schedules (cgbr_spmv_serial A x b) (heap_of b y) tt (heap_of b y2) /\ (balanced = true -> y1 = y2) /\ length y1 = length y.
  Proof.
    destruct B as [rows cols E]. intros HB (W1 & W2 & W3) Hst Hsh Hd.
    pose proof (makes1 rows cols E roff nbr coff nbc HB Hsh Hst choose Hd) as Hmk.
    pose proof HB as (Hne & HE & Hr & Hc & H1 & H2 & H3 & H4 & H5 & H6). unfold c_nnz in *. cbn [c_rows c_cols c_elems] in *.
    destruct (Coo_to_Cgbr_spec roff nbr rows coff nbc cols E Hr Hc HE Hne H1 H2 H3 H4 H5 H6 (make_block choose) tag1 _ Hmk choose bal workers eq_refl W1 W2 W3)
      as (parts & HA & Hg). cbv zeta in HA, Hg. match type of HA with _ = Ok (_, ?v, _, _) => set (balanced := v) in * end.
    eexists _, balanced, parts, _. split; [exact HA|]. intros x y b Hx Hy. destruct balanced.
    - eexists _, _. split; [eapply matrix_balanced; first [exact Hmk|exact Hg|by apply Hg|done]|]. split; [eapply matrix_serial; first [exact Hmk|exact Hg|by apply Hg|done]|]. split; [done|]. by rewrite imap_length.
    - eexists _, _. split; [eapply matrix_unbalanced; first [exact Hmk|exact Hg|by apply Hg|done]|]. split; [eapply matrix_serial; first [exact Hmk|exact Hg|by apply Hg|done]|]. split; [done|]. by rewrite imap_length.
  Qed.

  (** ** C34: [balanced] is whatever the flag contains *)
  Theorem C34_cgbr2_spmv (choose : list (elem T) -> nat -> nat -> kind2) B roff nbr coff nbc workers x y b (one : T) : exact_arith T one ->
    blockable B roff nbr coff nbc -> workers_ok B workers -> short_type -> short_blocks roff nbr coff nbc ->
    dense_blocks2 choose B roff nbr coff nbc small_distinct ->
    c_cols B <= length x -> length y = c_rows B ->
    exists A parts B', Coo_to_Cgbr2 (make_block2 choose) workers B (full roff) nbr (full coff) nbc = Ok (A, parts, B') /\
      forall balanced, all_schedules (cgbr2_spmv A balanced parts x b) (heap_of b y) tt (heap_of b (y_plus_Ax (c_elems B) (c_cols B) x y)).
  Proof.
    destruct B as [rows cols E]. intros SR HB (W1 & W2 & W3) Hst Hsh Hd Hx Hy.
    pose proof (makes2 rows cols E roff nbr coff nbc HB Hsh choose (dense_blocks2_weaken _ _ _ _ _ _ Hd)) as Hmk.
    pose proof HB as (Hne & HE & Hr & Hc & H1 & H2 & H3 & H4 & H5 & H6). unfold c_nnz in *. cbn [c_rows c_cols c_elems] in *.
    destruct (Coo_to_Cgbr2_spec roff nbr rows coff nbc cols E Hr Hc HE Hne H1 H2 H3 H4 H5 H6 (make_block2 choose) tag2 _ Hmk workers W1 W2 W3)
      as (parts & HA & Hg).
    eexists _, parts, _. split; [exact HA|].
    assert (Hdist : forall id, id ∈ bids roff nbr coff nbc E ->
      choose (local roff nbr coff nbc E id) (rsz roff nbc id) (csz coff nbc id) = K2Dense -> distinct_coords (local roff nbr coff nbc E id)).
    { intros id Hid Hk. destruct (block_facts rows cols E roff nbr coff nbc HB Hsh id Hid) as (F1 & F2 & F3 & F4 & F5 & _).
      rewrite F4, F5 in Hk. by apply (Hd _ _ _ F1 F2 F3) in Hk as [_ Hk]. }
    unfold cgbr2_spmv. intros [].
    - erewrite <- (row_val_exact roff nbr rows coff nbc cols E Hr Hc HE H1 H2 H4 H5 H6 (make_block2 choose) tag2 _ Hmk one SR Hdist); [|intros id; apply kind2_dec|done].
      eapply matrix_balanced; first [exact Hmk|exact Hg|by apply Hg|done].
    - erewrite <- (chunked_val_exact roff nbr rows coff nbc cols E Hr Hc HE H1 H2 H4 H5 H6 (make_block2 choose) tag2 _ Hmk one SR Hdist); [|intros id; apply kind2_dec|done|exact Hg].
      eapply matrix_unbalanced; first [exact Hmk|exact Hg|by apply Hg|done].
  Qed.
  Theorem C34_cgbr2_deterministic (choose : list (elem T) -> nat -> nat -> kind2) B roff nbr coff nbc workers :
    blockable B roff nbr coff nbc -> workers_ok B workers -> short_type -> short_blocks roff nbr coff nbc ->
    dense_blocks2 choose B roff nbr coff nbc small ->
    exists A parts B', Coo_to_Cgbr2 (make_block2 choose) workers B (full roff) nbr (full coff) nbc = Ok (A, parts, B') /\
      forall balanced x y b, c_cols B <= length x -> length y = c_rows B -> exists y',
        all_schedules (cgbr2_spmv A balanced parts x b) (heap_of b y) tt (heap_of b y') /\ length y' = length y.
  Proof.
    destruct B as [rows cols E]. intros HB (W1 & W2 & W3) Hst Hsh Hd.
    pose proof (makes2 rows cols E roff nbr coff nbc HB Hsh choose Hd) as Hmk.
    pose proof HB as (Hne & HE & Hr & Hc & H1 & H2 & H3 & H4 & H5 & H6). unfold c_nnz in *. cbn [c_rows c_cols c_elems] in *.
    destruct (Coo_to_Cgbr2_spec roff nbr rows coff nbc cols E Hr Hc HE Hne H1 H2 H3 H4 H5 H6 (make_block2 choose) tag2 _ Hmk workers W1 W2 W3)
      as (parts & HA & Hg).
    eexists _, parts, _. split; [exact HA|]. intros [] x y b Hx Hy; eexists; (split; [first [eapply matrix_balanced; first [exact Hmk|exact Hg|by apply Hg|done]|eapply matrix_unbalanced; first [exact Hmk|exact Hg|by apply Hg|done]]|by rewrite imap_length]).
  Qed.

  (** constant block sizes *)
  (** the last block of a dimension takes the remainder too: up to 2 * size - 1 *)
  Lemma const_short B br_size bc_size : 0 < br_size -> 0 < bc_size -> 2 * br_size <= sitW + 1 -> 2 * bc_size <= sitW + 1 ->
    short_blocks (const_off (c_rows B) br_size) (const_nb (c_rows B) br_size) (const_off (c_cols B) bc_size) (const_nb (c_cols B) bc_size).
  Proof.
    assert (Hgen : forall dim size bi, 0 < size -> 2 * size <= sitW + 1 -> bi < const_nb dim size -> block_rows (const_off dim size) bi <= sitW).
    { intros dim size bi Hs Hd Hbi. unfold block_rows, const_off.
      rewrite !nth_lookup, !fmap_seq_lookup by lia. cbn [default id].
      rewrite (proj2 (Nat.eqb_neq bi (const_nb dim size))) by lia.
      destruct (Nat.eqb_spec (S bi) (const_nb dim size)) as [Hl|]; [|cbn; nia].
      unfold const_nb in Hl. pose proof (Nat.div_mod dim size ltac:(lia)) as Hdm. pose proof (Nat.mod_upper_bound dim size ltac:(lia)).
      destruct (Nat.eqb_spec (dim / size) 0) as [Hz|Hz].
      - replace bi with 0 by lia. rewrite Hz in Hdm. lia.
      - rewrite <- Hl in Hdm. nia. }
    intros H1 H2 H3 H4. split; intros bi Hbi; by apply Hgen.
  Qed.
  Theorem C33_cgbr_const_spmv (choose : nat -> nat -> nat -> kind) bal B br_size bc_size workers x y b (one : T) : exact_arith T one ->
    0 < br_size -> 0 < bc_size -> 2 * br_size <= sitW + 1 -> 2 * bc_size <= sitW + 1 -> short_type ->
    c_elems B <> [] -> in_range (c_rows B) (c_cols B) (c_elems B) ->
    c_rows B + 2 < itW -> c_cols B + 2 < itW -> Nat.max 1 (c_rows B / br_size) * Nat.max 1 (c_cols B / bc_size) < itW -> workers_ok B workers ->
    dense_blocks choose B (const_off (c_rows B) br_size) (const_nb (c_rows B) br_size) (const_off (c_cols B) bc_size) (const_nb (c_cols B) bc_size) small_distinct ->
    c_cols B <= length x -> length y = c_rows B ->
    exists A balanced parts B', Coo_to_Cgbr_const choose bal workers B br_size bc_size = Ok (A, balanced, parts, B') /\
      all_schedules (cgbr_spmv A balanced parts x b) (heap_of b y) tt (heap_of b (y_plus_Ax (c_elems B) (c_cols B) x y)) /\
      all_schedules (cgbr_spmv_serial A x b) (heap_of b y) tt (heap_of b (y_plus_Ax (c_elems B) (c_cols B) x y)).
  Proof.
    intros SR S1 S2 S3 S4 Hst Hne HE H1 H2 H3 HW Hd Hx Hy. unfold Coo_to_Cgbr_const. rewrite !const_offsets_spec by done. cbn [mbind outcome_bind].
    apply (C33_cgbr_spmv choose bal B _ _ _ _ workers x y b one SR); try done; [|by apply const_short].
    apply blockable_const; try done; [destruct HW as (_ & _ & HW); lia|by rewrite !const_nb_max].
  Qed.
  Theorem C34_cgbr2_const_spmv (choose : list (elem T) -> nat -> nat -> kind2) B br_size bc_size workers x y b (one : T) : exact_arith T one ->
    0 < br_size -> 0 < bc_size -> 2 * br_size <= sitW + 1 -> 2 * bc_size <= sitW + 1 -> short_type ->
    c_elems B <> [] -> in_range (c_rows B) (c_cols B) (c_elems B) ->
    c_rows B + 2 < itW -> c_cols B + 2 < itW -> Nat.max 1 (c_rows B / br_size) * Nat.max 1 (c_cols B / bc_size) < itW -> workers_ok B workers ->
    dense_blocks2 choose B (const_off (c_rows B) br_size) (const_nb (c_rows B) br_size) (const_off (c_cols B) bc_size) (const_nb (c_cols B) bc_size) small_distinct ->
    c_cols B <= length x -> length y = c_rows B ->
    exists A parts B', Coo_to_Cgbr2_const (make_block2 choose) workers B br_size bc_size = Ok (A, parts, B') /\
      forall balanced, all_schedules (cgbr2_spmv A balanced parts x b) (heap_of b y) tt (heap_of b (y_plus_Ax (c_elems B) (c_cols B) x y)).
  Proof.
    intros SR S1 S2 S3 S4 Hst Hne HE H1 H2 H3 HW Hd Hx Hy. unfold Coo_to_Cgbr2_const. rewrite !const_offsets_spec by done. cbn [mbind outcome_bind].
    apply (C34_cgbr2_spmv choose B _ _ _ _ workers x y b one SR); try done; [|by apply const_short].
    apply blockable_const; try done; [destruct HW as (_ & _ & HW); lia|by rewrite !const_nb_max].
  Qed.

  (** ** C42: what is left of the source; an element keeps its coordinates exactly when its
      block starts at row 0 and column 0 *)
  Definition from_block_start roff nbr coff nbc (e : elem T) : elem T :=
    Elem (row e - nth (block_of roff nbr (row e)) roff 0) (col e - nth (block_of coff nbc (col e)) coff 0) (val e) 0.
  Lemma bsorted_from_start roff nbr rows coff nbc cols E : blocking roff nbr rows -> blocking coff nbc cols -> in_range rows cols E ->
    same_elements (BlocksProof.loc roff coff nbc <$> bsorted roff nbr coff nbc E) (from_block_start roff nbr coff nbc <$> E).
  Proof.
    intros Hr Hc HE. unfold same_elements. rewrite (bsorted_perm roff nbr coff nbc E). apply reflexive_eq. unfold with_ids.
    rewrite <- !list_fmap_compose. apply Forall_fmap_ext_1. eapply Forall_impl; [exact HE|]. cbv beta. intros e [He1 He2].
    unfold compose, coords, BlocksProof.loc, from_block_start, ro, co. cbn [row col val blk set_blk].
    destruct (block_id_div roff nbr coff nbc cols e Hc He2) as [-> ->]. done.
  Qed.
  Lemma source_left roff nbr rows coff nbc cols E (make : factory) tag (dense : nat -> Prop) :
    blocking roff nbr rows -> blocking coff nbc cols -> in_range rows cols E ->
    (forall id, id ∈ bids roff nbr coff nbc E -> exists (M : gblock T) ty L,
       makes make tag (local roff nbr coff nbc E id) (rsz roff nbc id) (csz coff nbc id) M ty L /\ (~ dense id -> ~ is_dense (gb_mat M))) ->
    same_elements (cgbr_source roff nbr coff nbc E make) (from_block_start roff nbr coff nbc <$> E).
  Proof.
    intros Hr Hc HE Hmk. pose proof (bsorted_from_start _ _ _ _ _ _ _ Hr Hc HE) as Hs. unfold same_elements in *.
    rewrite <- Hs. clear Hs. apply fmap_Permutation. rewrite <- all_blocks. unfold cgbr_source.
    assert (Hgen : forall K, (forall id, id ∈ K -> id ∈ bids roff nbr coff nbc E) ->
      mjoin (made_left roff nbr coff nbc E make <$> K) ≡ₚ BlocksProof.loc roff coff nbc <$> mjoin (blocks_at roff nbr coff nbc E <$> K)).
    { induction K as [|id K IH]; intros HK; [done|]. cbn [fmap list_fmap mjoin list_join]. rewrite fmap_app. apply Permutation_app.
      - destruct (made_makes roff nbr coff nbc E make tag dense Hmk id (HK id ltac:(left))) as [HM _]. apply (mk_same _ _ _ _ _ _ _ _ HM).
      - apply IH. intros id' Hid'. apply HK. by right. }
    by apply Hgen.
  Qed.
  Lemma not_same_elements roff nbr coff nbc E :
    (exists e, e ∈ E /\ row e + col e <> row (from_block_start roff nbr coff nbc e) + col (from_block_start roff nbr coff nbc e)) ->
    ~ same_elements E (from_block_start roff nbr coff nbc <$> E).
  Proof.
    intros (e & He & Hne) Hs. unfold same_elements in Hs.
    assert (Hsum : forall l : list (elem T), sum_list_with (fun c : nat * nat * T => c.1.1 + c.1.2) (coords <$> l) = sum_list_with (fun e => row e + col e) l).
    { induction l as [|a l IH]; [done|]. cbn. by rewrite IH. }
    assert (Hp : forall l l' : list (nat * nat * T), l ≡ₚ l' -> sum_list_with (fun c : nat * nat * T => c.1.1 + c.1.2) l = sum_list_with (fun c : nat * nat * T => c.1.1 + c.1.2) l').
    { intros l l' Hl. induction Hl; cbn; lia. }
    apply Hp in Hs. rewrite !Hsum in Hs. clear Hsum Hp.
    assert (Hle : forall l, sum_list_with (fun e => row e + col e) (from_block_start roff nbr coff nbc <$> l) <= sum_list_with (fun e => row e + col e) l).
    { induction l as [|a l IH]; [done|]. cbn in *. lia. }
    apply elem_of_list_split in He as (l1 & l2 & ->). rewrite fmap_app, fmap_cons, !sum_list_with_app in Hs. cbn [sum_list_with] in Hs.
    pose proof (Hle l1). pose proof (Hle l2).
    assert (row (from_block_start roff nbr coff nbc e) + col (from_block_start roff nbr coff nbc e) <= row e + col e) by (cbn; lia). lia.
  Qed.
  Lemma moved roff nbr rows coff nbc cols e : blocking roff nbr rows -> blocking coff nbc cols -> row e < rows -> col e < cols ->
    nth (block_of roff nbr (row e)) roff 0 <> 0 \/ nth (block_of coff nbc (col e)) coff 0 <> 0 ->
    row e + col e <> row (from_block_start roff nbr coff nbc e) + col (from_block_start roff nbr coff nbc e).
  Proof.
    intros Hr Hc H1 H2 Hm. destruct (block_of_spec _ _ _ _ Hr H1) as (_ & B1 & _). destruct (block_of_spec _ _ _ _ Hc H2) as (_ & B2 & _). cbn. lia.
  Qed.
  Theorem C42_cgbr_source (choose : nat -> nat -> nat -> kind) bal B roff nbr coff nbc workers :
    blockable B roff nbr coff nbc -> workers_ok B workers -> short_type -> short_blocks roff nbr coff nbc ->
    dense_blocks choose B roff nbr coff nbc small ->
    exists A balanced parts B', Coo_to_Cgbr choose bal workers B (full roff) nbr (full coff) nbc = Ok (A, balanced, parts, B') /\
      c_rows B' = c_rows B /\ c_cols B' = c_cols B /\
      same_elements (c_elems B') (from_block_start roff nbr coff nbc <$> c_elems B) /\
      ((exists e, e ∈ c_elems B /\ (nth (block_of roff nbr (row e)) roff 0 <> 0 \/ nth (block_of coff nbc (col e)) coff 0 <> 0)) ->
       ~ same_elements (c_elems B) (c_elems B')).
  Proof.
    destruct B as [rows cols E]. intros HB (W1 & W2 & W3) Hst Hsh Hd.
    pose proof (makes1 rows cols E roff nbr coff nbc HB Hsh Hst choose Hd) as Hmk.
    pose proof HB as (Hne & HE & Hr & Hc & H1 & H2 & H3 & H4 & H5 & H6). unfold c_nnz in *. cbn [c_rows c_cols c_elems] in *.
    destruct (Coo_to_Cgbr_spec roff nbr rows coff nbc cols E Hr Hc HE Hne H1 H2 H3 H4 H5 H6 (make_block choose) tag1 _ Hmk choose bal workers eq_refl W1 W2 W3)
      as (parts & HA & Hg). cbv zeta in HA, Hg. match type of HA with _ = Ok (_, ?v, _, _) => set (balanced := v) in * end.
    eexists _, balanced, parts, _. split; [exact HA|]. cbn [c_rows c_cols c_elems]. split; [done|]. split; [done|].
    assert (Hs : same_elements (cgbr_source roff nbr coff nbc E (make_block choose)) (from_block_start roff nbr coff nbc <$> E)).
    { eapply source_left; [done|done|done|exact Hmk]. }
    split; [done|]. intros (e & He & Hm) Hsame. apply (not_same_elements roff nbr coff nbc E).
    - exists e. split; [done|]. unfold in_range in HE. rewrite Forall_forall in HE. destruct (HE e He). by eapply moved.
    - unfold same_elements in *. by rewrite Hsame.
  Qed.
  Theorem C42_cgbr2_source (choose : list (elem T) -> nat -> nat -> kind2) B roff nbr coff nbc workers :
    blockable B roff nbr coff nbc -> workers_ok B workers -> short_type -> short_blocks roff nbr coff nbc ->
    dense_blocks2 choose B roff nbr coff nbc small ->
    exists A parts B', Coo_to_Cgbr2 (make_block2 choose) workers B (full roff) nbr (full coff) nbc = Ok (A, parts, B') /\
      c_rows B' = c_rows B /\ c_cols B' = c_cols B /\
      same_elements (c_elems B') (from_block_start roff nbr coff nbc <$> c_elems B) /\
      ((exists e, e ∈ c_elems B /\ (nth (block_of roff nbr (row e)) roff 0 <> 0 \/ nth (block_of coff nbc (col e)) coff 0 <> 0)) ->
       ~ same_elements (c_elems B) (c_elems B')).
  Proof.
    destruct B as [rows cols E]. intros HB (W1 & W2 & W3) Hst Hsh Hd.
    pose proof (makes2 rows cols E roff nbr coff nbc HB Hsh choose Hd) as Hmk.
    pose proof HB as (Hne & HE & Hr & Hc & H1 & H2 & H3 & H4 & H5 & H6). unfold c_nnz in *. cbn [c_rows c_cols c_elems] in *.
    destruct (Coo_to_Cgbr2_spec roff nbr rows coff nbc cols E Hr Hc HE Hne H1 H2 H3 H4 H5 H6 (make_block2 choose) tag2 _ Hmk workers W1 W2 W3)
      as (parts & HA & Hg).
    eexists _, parts, _. split; [exact HA|]. cbn [c_rows c_cols c_elems]. split; [done|]. split; [done|].
    assert (Hs : same_elements (cgbr_source roff nbr coff nbc E (make_block2 choose)) (from_block_start roff nbr coff nbc <$> E)).
    { eapply source_left; [done|done|done|exact Hmk]. }
    split; [done|]. intros (e & He & Hm) Hsame. apply (not_same_elements roff nbr coff nbc E).
    - exists e. split; [done|]. unfold in_range in HE. rewrite Forall_forall in HE. destruct (HE e He). by eapply moved.
    - unfold same_elements in *. by rewrite Hsame.
  Qed.

  (** ** C43 *)
  (** the statistics of a matrix: for every type the number of blocks of that type and of their
      elements; [tag] is a block's type *)
  Definition statistics (tag : mblock T -> nat) B roff nbr coff nbc (A : cgbr T) : Prop :=
    exists blocks : list (gblock T),
      cg_blocks A = full blocks /\ length blocks = cg_nnzblocks A /\
      distinct_count (block_id roff nbr coff nbc <$> c_elems B) (cg_nnzblocks A) /\
      sum_list_with gb_nnz blocks = c_nnz B /\
      (forall t, t < MATRIX_TYPE_NUM ->
         aget (cg_type_blocks A) t = Ok (length (bfilter (fun M => tag (gb_mat M) =? t) blocks)) /\
         aget (cg_type_nnz A) t = Ok (sum_list_with gb_nnz (bfilter (fun M => tag (gb_mat M) =? t) blocks))) /\
      (exists counts, cg_type_blocks A = full counts /\ sum_list_with id counts = cg_nnzblocks A) /\
      (exists counts, cg_type_nnz A = full counts /\ sum_list_with id counts = c_nnz B).
  Lemma matrix_statistics roff nbr rows coff nbc cols E (make : factory) tag (dense : nat -> Prop) :
    blocking roff nbr rows -> blocking coff nbc cols -> in_range rows cols E ->
    (forall id, id ∈ bids roff nbr coff nbc E -> exists (M : gblock T) ty L,
       makes make tag (local roff nbr coff nbc E id) (rsz roff nbc id) (csz coff nbc id) M ty L /\ (~ dense id -> ~ is_dense (gb_mat M))) ->
    statistics tag (Coo rows cols E) roff nbr coff nbc (cgbr_matrix roff nbr rows coff nbc cols E make).
  Proof.
    intros Hr Hc HE Hmk. set (I := bids roff nbr coff nbc E). set (mb := made_block roff nbr coff nbc E make).
    set (mt := made_type roff nbr coff nbc E make). set (at_ := blocks_at roff nbr coff nbc E).
    assert (Hm : forall id, id ∈ I -> mt id = tag (gb_mat (mb id)) /\ mt id < MATRIX_TYPE_NUM /\ gb_nnz (mb id) = length (at_ id)).
    { intros id Hid. destruct (made_makes roff nbr coff nbc E make tag dense Hmk id Hid) as [HM _].
      destruct (mk_type _ _ _ _ _ _ _ _ HM) as [M1 M2]. split; [done|]. split; [done|].
      etrans; [apply (mk_nnz _ _ _ _ _ _ _ _ HM)|]. unfold local. by rewrite fmap_length. }
    assert (Htot : length (mjoin (at_ <$> I)) = length E).
    { unfold at_, I. rewrite all_blocks. apply bsorted_length. }
    exists (mb <$> I). unfold cgbr_matrix. cbn [cg_blocks cg_nnzblocks cg_type_blocks cg_type_nnz c_elems].
    split; [done|]. split; [apply fmap_length|].
    assert (Hsum : forall K, (forall id, id ∈ K -> id ∈ I) -> sum_list_with gb_nnz (mb <$> K) = length (mjoin (at_ <$> K))).
    { induction K as [|id K IH]; intros HK; [done|]. cbn [fmap list_fmap sum_list_with mjoin list_join]. rewrite app_length. f_equal.
      - apply Hm, HK. left.
      - apply IH. intros id' Hid'. apply HK. by right. }
    split.
    { exists I. split; [apply increasing_NoDup, bids_sorted|]. split; [|done]. intros id. unfold I. split.
      - intros (e & He & <-)%bids_elem. rewrite (bsorted_perm roff nbr coff nbc E) in He. unfold with_ids in He.
        apply elem_of_list_fmap in He as (e0 & -> & He0). apply elem_of_list_fmap. by exists e0.
      - intros Hid. apply elem_of_list_fmap in Hid as (e0 & -> & He0). apply (blk_in_bids roff nbr coff nbc E (set_blk (block_id roff nbr coff nbc e0) e0)).
        rewrite (bsorted_perm roff nbr coff nbc E). unfold with_ids. apply elem_of_list_fmap. by exists e0. }
    split; [by rewrite Hsum|]. split; [|split].
    - intros t Ht. rewrite !tallies_get by done. fold mt I at_.
      assert (Hgen : forall K, (forall id, id ∈ K -> id ∈ I) ->
        tally ((fun id => (mt id, 1)) <$> K) t = length (bfilter (fun M => tag (gb_mat M) =? t) (mb <$> K)) /\
        tally ((fun id => (mt id, length (at_ id))) <$> K) t = sum_list_with gb_nnz (bfilter (fun M => tag (gb_mat M) =? t) (mb <$> K))).
      { induction K as [|id K IH]; intros HK; [done|]. destruct IH as [I1 I2]; [intros id' Hid'; apply HK; by right|].
        destruct (Hm id (HK id ltac:(left))) as (M1 & _ & M3). rewrite !fmap_cons. unfold tally in *. cbn [sum_list_with List.filter].
        rewrite <- M1. destruct (mt id =? t); cbn [length sum_list_with]; lia. }
      destruct (Hgen I ltac:(done)) as [-> ->]. done.
    - eexists. split; [done|]. rewrite tallies_total; [apply sum_ones|]. apply Forall_fmap, Forall_forall. intros id Hid. cbn. by apply Hm.
    - eexists. split; [done|]. rewrite tallies_total; [fold at_ I mt|].
      + rewrite (sum_sizes mt at_ I). done.
      + apply Forall_fmap, Forall_forall. intros id Hid. cbn. by apply Hm.
  Qed.
  Theorem C43_cgbr_statistics (choose : nat -> nat -> nat -> kind) bal B roff nbr coff nbc workers :
    blockable B roff nbr coff nbc -> workers_ok B workers -> short_type -> short_blocks roff nbr coff nbc ->
    dense_blocks choose B roff nbr coff nbc small ->
    exists A balanced parts B', Coo_to_Cgbr choose bal workers B (full roff) nbr (full coff) nbc = Ok (A, balanced, parts, B') /\
      statistics tag1 B roff nbr coff nbc A.
  Proof.
    destruct B as [rows cols E]. intros HB (W1 & W2 & W3) Hst Hsh Hd.
    pose proof (makes1 rows cols E roff nbr coff nbc HB Hsh Hst choose Hd) as Hmk.
    pose proof HB as (Hne & HE & Hr & Hc & H1 & H2 & H3 & H4 & H5 & H6). unfold c_nnz in *. cbn [c_rows c_cols c_elems] in *.
    destruct (Coo_to_Cgbr_spec roff nbr rows coff nbc cols E Hr Hc HE Hne H1 H2 H3 H4 H5 H6 (make_block choose) tag1 _ Hmk choose bal workers eq_refl W1 W2 W3)
      as (parts & HA & Hg). cbv zeta in HA, Hg. match type of HA with _ = Ok (_, ?v, _, _) => set (balanced := v) in * end.
    eexists _, balanced, parts, _. split; [exact HA|]. eapply matrix_statistics; [done|done|done|exact Hmk].
  Qed.
  Theorem C43_cgbr2_statistics (choose : list (elem T) -> nat -> nat -> kind2) B roff nbr coff nbc workers :
    blockable B roff nbr coff nbc -> workers_ok B workers -> short_type -> short_blocks roff nbr coff nbc ->
    dense_blocks2 choose B roff nbr coff nbc small ->
    exists A parts B', Coo_to_Cgbr2 (make_block2 choose) workers B (full roff) nbr (full coff) nbc = Ok (A, parts, B') /\
      statistics tag2 B roff nbr coff nbc A.
  Proof.
    destruct B as [rows cols E]. intros HB (W1 & W2 & W3) Hst Hsh Hd.
    pose proof (makes2 rows cols E roff nbr coff nbc HB Hsh choose Hd) as Hmk.
    pose proof HB as (Hne & HE & Hr & Hc & H1 & H2 & H3 & H4 & H5 & H6). unfold c_nnz in *. cbn [c_rows c_cols c_elems] in *.
    destruct (Coo_to_Cgbr2_spec roff nbr rows coff nbc cols E Hr Hc HE Hne H1 H2 H3 H4 H5 H6 (make_block2 choose) tag2 _ Hmk workers W1 W2 W3)
      as (parts & HA & Hg).
    eexists _, parts, _. split; [exact HA|]. eapply matrix_statistics; [done|done|done|exact Hmk].
  Qed.

  (** ** C45 for these formats *)
  Theorem C45_cgbr_empty_refuted (choose : nat -> nat -> nat -> kind) bal (make : factory) (rows cols workers nbr nbc : nat) roff coff :
    let B : coo T := Coo rows cols [] in
    Coo_to_Cgbr choose bal workers B (full roff) nbr (full coff) nbc = Undef OutOfBounds /\
    (blocking roff nbr rows -> blocking coff nbc cols -> nbr <= rows -> nbc <= cols ->
     Coo_to_Cgbr2 make workers B (full roff) nbr (full coff) nbc = Undef OutOfBounds).
  Proof.
    intros B. subst B.
    assert (Hid : calculate_block_id (@nil (elem T)) (full roff) nbr (full coff) nbc = Ok []) by (by apply for_range_empty).
    assert (Hs : sort_elements_blocks (@nil (elem T)) = Ok []) by (unfold sort_elements_blocks; by rewrite psort_isort by apply swo_compare_blocks).
    split; [|intros Hr Hc Hnr Hnc].
    - unfold Coo_to_Cgbr. cbn [c_elems]. rewrite Hid. cbn [mbind outcome_bind]. rewrite Hs. done.
    - unfold Coo_to_Cgbr2. cbn [c_elems c_rows c_cols]. rewrite (check_blocking_ok roff nbr rows coff nbc cols Hr Hc Hnr Hnc). cbn [mbind outcome_bind].
      rewrite Hid. cbn [mbind outcome_bind]. rewrite Hs. done.
  Qed.
End C33_C43.

(** ** the hypotheses are met: the 4 x 5 matrix of Properties_Simple.v in 2 x 2 blocks, 32-bit
    indices and 16-bit short ones; the block with the repeated coordinate becomes CSR, one of
    the others COO, the last one dense *)
Definition ex_choose (rows cols nnz : nat) : kind := if 1 <? nnz then KCsr else if cols =? 3 then KCoo else KDense.
Definition ex_choose2 (L : list (elem Z)) (rows cols : nat) : kind2 :=
  if 1 <? length L then K2CsrSerial else if cols =? 3 then K2CsrParallel else K2Dense.
Lemma small_default rows cols : (N.of_nat (rows * cols) < 2 ^ 32)%N -> rows * cols < @itW default_widths.
Proof. apply default_big. Qed.
Example C33_C43_ex :
  @blockable default_widths Z ex_B [0; 2; 4] 2 [0; 3; 5] 2 /\ @workers_ok default_widths Z ex_B 4 /\ @short_type default_widths /\
  @short_blocks default_widths [0; 2; 4] 2 [0; 3; 5] 2 /\
  dense_blocks ex_choose ex_B [0; 2; 4] 2 [0; 3; 5] 2 (@small_distinct Z default_widths) /\
  dense_blocks2 ex_choose2 ex_B [0; 2; 4] 2 [0; 3; 5] 2 (@small_distinct Z default_widths) /\
  (ex_choose 2 3 (length (submatrix [0; 2; 4] 0 [0; 3; 5] 0 (c_elems ex_B))) = KCsr /\
   ex_choose 2 3 (length (submatrix [0; 2; 4] 1 [0; 3; 5] 0 (c_elems ex_B))) = KCoo /\
   ex_choose 2 2 (length (submatrix [0; 2; 4] 1 [0; 3; 5] 1 (c_elems ex_B))) = KDense) /\
  (exists e, e ∈ c_elems ex_B /\ (nth (block_of [0; 2; 4] 2 (row e)) [0; 2; 4] 0 <> 0 \/ nth (block_of [0; 3; 5] 2 (col e)) [0; 3; 5] 0 <> 0)).
Proof.
  destruct ex_blockable as (H1 & H2 & _). split; [exact H1|]. split; [exact H2|].
  split; [unfold short_type; cbn [itW sitW default_widths]; right; split; lia|].
  split; [split; intros [|[|bi]] Hb; try lia; by apply default_small|].
  split; [|split; [|split]].
  - intros [|[|br]] [|[|bc]] Hbr Hbc; try lia; intros L; cbv in L; subst L; intros Hk; try discriminate Hk; (split; [by apply default_big|]).
    + constructor.
    + repeat constructor. by intros ?%elem_of_nil.
  - intros br bc L Hbr Hbc Hs Hk.
    assert (HL : length L = length (submatrix [0; 2; 4] br [0; 3; 5] bc (c_elems ex_B))).
    { unfold same_elements in Hs. apply Permutation_length in Hs. by rewrite !fmap_length in Hs. }
    assert (Hlen : length L <= 1).
    { unfold ex_choose2 in Hk. destruct (Nat.ltb_spec 1 (length L)); [done|lia]. }
    split; [destruct br as [|[|br]], bc as [|[|bc]]; try lia; by apply default_big|].
    unfold distinct_coords. destruct L as [|e [|]]; [constructor|repeat constructor; by intros ?%elem_of_nil|cbn in Hlen; lia].
  - done.
  - exists (Elem 3 4 7%Z 0). split; [left|left; vm_compute; discriminate].
Qed.
Example C33_const_ex : 2 * 2 <= @sitW default_widths + 1 /\ c_rows ex_B * c_cols ex_B < @itW default_widths /\
  dense_blocks ex_choose ex_B (const_off 4 2) (const_nb 4 2) (const_off 5 2) (const_nb 5 2) (@small_distinct Z default_widths).
Proof.
  split; [cbn [sitW default_widths]; lia|]. split; [by apply default_big|].
  intros [|[|br]] [|[|bc]] Hbr Hbc; try (change (const_nb 4 2) with 2 in Hbr; change (const_nb 5 2) with 2 in Hbc; lia); intros L; cbv in L; subst L; intros Hk; try discriminate Hk; (split; [by apply default_big|]).
  all: repeat constructor; by intros ?%elem_of_nil.
Qed.
