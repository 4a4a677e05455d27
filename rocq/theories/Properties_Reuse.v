(** Properties_Reuse.v: C39-C41, C45: several formats built from one coordinate matrix, and
    matrices without elements. *)
From Verif Require Import DenseProof Csbr3Chunk Properties_Utils Properties_Simple Properties_Blocked.

Section C39_C45.
  Context {T : Type} `{Scalar T} `{Widths}.
  Implicit Types (B : coo T) (E : list (elem T)) (x y : list T) (b : buf) (roff coff : list nat).

  (** ** C39: no law of addition or multiplication is assumed *)
  Theorem C39_balanced_deterministic B roff nbr coff nbc workers bs x y b :
    blockable B roff nbr coff nbc -> workers_ok B workers -> blockable3 B bs -> c_cols B <= length x -> length y = c_rows B ->
    exists A1 parts A2 A3 B1 B2 B3,
      Coo_to_Csbr workers B (full roff) nbr (full coff) nbc = Ok (A1, parts, B1) /\
      Coo_to_Csbr2 B (full roff) nbr (full coff) nbc = Ok (A2, B2) /\ Coo_to_Csbr3 B bs = Ok (A3, B3) /\
      let y' := spmv_by_column (c_elems B) x y in
      all_schedules (csbr_spmv A1 parts true x b) (heap_of b y) tt (heap_of b y') /\
      all_schedules (csbr2_spmv A2 x b) (heap_of b y) tt (heap_of b y') /\
      all_schedules (csbr3_spmv_balanced A3 x b) (heap_of b y) tt (heap_of b y').
  Proof.
    intros HB HW H3 Hx Hy. destruct (C28_csbr_spmv_any B roff nbr coff nbc workers x y b HB HW Hx Hy) as (A1 & parts & B1 & y' & H1 & HS1 & _).
    destruct (C29_csbr2_spmv_any B roff nbr coff nbc x y b HB Hx Hy) as (A2 & B2 & H2 & HS2).
    destruct (C30_csbr3_balanced_spmv B bs x y b H3 Hx Hy) as (A3 & B3 & HA3 & HS3).
    exists A1, parts, A2, A3, B1, B2, B3. cbv zeta. done.
  Qed.

  (** ** C29, constant block sizes *)
  Theorem C29_csbr2_const_spmv B br_size bc_size x y b :
    0 < br_size -> 0 < bc_size -> c_elems B <> [] -> in_range (c_rows B) (c_cols B) (c_elems B) ->
    c_rows B + 2 < itW -> c_cols B + 2 < itW -> Nat.max 1 (c_rows B / br_size) * Nat.max 1 (c_cols B / bc_size) < itW -> c_nnz B < itW ->
    c_cols B <= length x -> length y = c_rows B ->
    exists A B', Coo_to_Csbr2_const B br_size bc_size = Ok (A, B') /\
      all_schedules (csbr2_spmv A x b) (heap_of b y) tt (heap_of b (spmv_by_column (c_elems B) x y)).
  Proof.
    intros S1 S2 Hne HE H1 H2 H3 H4 Hx Hy. unfold Coo_to_Csbr2_const. rewrite !const_offsets_spec by done. cbn [mbind outcome_bind].
    apply (C29_csbr2_spmv_any B _ _ _ _ x y b); try done. apply blockable_const; try done.
    by rewrite !const_nb_max.
  Qed.

  (** ** C41, C40: the conversions a user can run on a coordinate matrix, in any order
      (src/test/result.cpp runs five of them) *)
  Inductive conversion :=
  | ToCsr | ToCsr2
  | ToCswr (width : nat)
  | ToCsbr (workers : nat) (roff : list nat) (nbr : nat) (coff : list nat) (nbc : nat)
  | ToCsbr2 (roff : list nat) (nbr : nat) (coff : list nat) (nbc : nat)
  | ToCsbr3 (block_size : nat).
  (** y += A x for the matrix A that was built *)
  Definition multiply : Type := list T -> buf -> prog T unit.
  Definition convert (c : conversion) B : outcome (multiply * coo T) :=
    match c with
    | ToCsr => '(A, B) ← Coo_to_Csr B; Ok (csr_spmv A, B)
    | ToCsr2 => '(A, B) ← Coo_to_Csr B; Ok (csr2_spmv A, B)
    | ToCswr w => '(A, B) ← Coo_to_Cswr B w; Ok (cswr_spmv A, B)
    | ToCsbr workers roff nbr coff nbc =>
        '(A, parts, B) ← Coo_to_Csbr workers B (full roff) nbr (full coff) nbc; Ok (csbr_spmv A parts true, B)
    | ToCsbr2 roff nbr coff nbc => '(A, B) ← Coo_to_Csbr2 B (full roff) nbr (full coff) nbc; Ok (csbr2_spmv A, B)
    | ToCsbr3 bs => '(A, B) ← Coo_to_Csbr3 B bs; Ok (csbr3_spmv_balanced A, B)
    end.
  (** the conversions cs, one after another, on the same matrix *)
  Fixpoint convert_all (cs : list conversion) B : outcome (list multiply * coo T) :=
    match cs with
    | [] => Ok ([], B)
    | c :: cs => '(m, B) ← convert c B; '(ms, B) ← convert_all cs B; Ok (m :: ms, B)
    end.
  (** what each conversion needs *)
  Definition convertible (c : conversion) B : Prop :=
    match c with
    | ToCsr | ToCsr2 => True
    | ToCswr w => 0 < w /\ w <= sitW /\ c_rows B + w + 1 < itW
    | ToCsbr workers roff nbr coff nbc => blockable B roff nbr coff nbc /\ workers_ok B workers
    | ToCsbr2 roff nbr coff nbc => blockable B roff nbr coff nbc
    | ToCsbr3 bs => blockable3 B bs
    end.

  Lemma by_column_rows E E' x y :
    (forall i, coords <$> bfilter (in_row i) E' = coords <$> bfilter (in_row i) (isort (bykey col) E)) ->
    spmv_by_column E' x y = spmv_by_column E x y.
  Proof.
    intros Hr. unfold spmv_by_column, spmv_in_order. apply imap_ext. intros i v _.
    assert (Hi : forall l, row_acc (bfilter (in_row i) l) x i v = row_acc l x i v).
    { intros l. apply row_acc_row. induction l as [|e l IH]; [done|]. cbn. destruct (in_row i e) eqn:Hi; [cbn; rewrite Hi; by f_equal|done]. }
    rewrite <- (Hi (isort (bykey col) E')), <- (Hi (isort (bykey col) E)). apply row_acc_coords.
    rewrite (filter_isort _ (swo_bykey col)).
    set (ckey := fun c : nat * nat * T => snd (fst c)).
    change (fmap coords) with (map (coords (T := T))) at 1.
    rewrite (isort_map _ (bykey ckey) coords) by done.
    change (map coords (bfilter (in_row i) E')) with (coords <$> bfilter (in_row i) E'). rewrite Hr.
    change (fmap coords) with (map (coords (T := T))). rewrite <- (isort_map (bykey col) (bykey ckey) coords) by done.
    rewrite <- (filter_isort _ (swo_bykey col)), (isort_idemp _ (swo_bykey col)). done.
  Qed.

  Lemma convert_spec c B : in_range (c_rows B) (c_cols B) (c_elems B) -> c_rows B + 1 < itW -> c_nnz B < itW -> convertible c B ->
    exists m B', convert c B = Ok (m, B') /\
      (forall x y b, c_cols B <= length x -> length y = c_rows B ->
         all_schedules (m x b) (heap_of b y) tt (heap_of b (spmv_by_column (c_elems B) x y))) /\
      c_rows B' = c_rows B /\ c_cols B' = c_cols B /\ same_elements (c_elems B) (c_elems B') /\
      (forall i, coords <$> bfilter (in_row i) (c_elems B') = coords <$> bfilter (in_row i) (isort (bykey col) (c_elems B))).
  Proof.
    intros HB Hr Hn Hc.
    assert (Hblocked : forall roff nbr coff nbc, blocking coff nbc (c_cols B) -> same_elements (c_elems B) (bsorted roff nbr coff nbc (c_elems B)) /\
      (forall i, coords <$> bfilter (in_row i) (bsorted roff nbr coff nbc (c_elems B)) = coords <$> bfilter (in_row i) (isort (bykey col) (c_elems B)))).
    { intros roff nbr coff nbc Hco. split; [unfold same_elements; symmetry; apply bsorted_coords|]. intros i. by eapply bsorted_rows. }
    destruct c as [| |w|workers roff nbr coff nbc|roff nbr coff nbc|bs]; cbn [convert convertible] in *.
    - pose proof (Coo_to_Csr_spec B HB Hr Hn) as HA. cbv zeta in HA.
      eexists _, _. split; [rewrite HA; reflexivity|]. split; [intros x y b Hx Hy; by eapply csr_spmv_spec|].
      cbn [c_rows c_cols c_elems]. split; [done|]. split; [done|]. split; [unfold same_elements; by rewrite isort_perm|].
      intros i. by rewrite row_filter_isort.
    - pose proof (Coo_to_Csr_spec B HB Hr Hn) as HA. cbv zeta in HA.
      eexists _, _. split; [rewrite HA; reflexivity|]. split; [intros x y b Hx Hy; by eapply csr2_spmv_spec|].
      cbn [c_rows c_cols c_elems]. split; [done|]. split; [done|]. split; [unfold same_elements; by rewrite isort_perm|].
      intros i. by rewrite row_filter_isort.
    - destruct Hc as (Hw & Hs & Hr2). pose proof (Coo_to_Cswr_spec B w HB Hw Hr2 Hn) as HA. cbv zeta in HA.
      eexists _, _. split; [rewrite HA; reflexivity|]. split; [intros x y b Hx Hy; by eapply cswr_spmv_spec|].
      cbn [c_rows c_cols c_elems]. split; [done|]. split; [done|]. split; [unfold same_elements; by rewrite isort_perm|].
      intros i. by rewrite row_filter_widerows.
    - destruct Hc as [HBk HW]. pose proof HBk as (Hne & HE & Hro & Hco & H1 & H2 & H3 & H4 & H5 & H6). pose proof HW as (W1 & W2 & W3).
      destruct B as [rows cols E]. unfold c_nnz in *. cbn [c_rows c_cols c_elems] in *.
      destruct (Coo_to_Csbr_spec roff nbr rows coff nbc cols E Hro Hco HE Hne H1 H2 H3 H4 H5 H6 workers W1 W2 W3) as (parts & HA & Hg & _).
      eexists _, _. split; [rewrite HA; reflexivity|]. split; [intros x y b Hx Hy; by apply csbr_balanced|].
      split; [done|]. split; [done|]. by apply (Hblocked _ _ _ _).
    - destruct B as [rows cols E]. unfold c_nnz in *. destruct Hc as (Hne & HE & Hro & Hco & H1 & H2 & H3 & H4 & H5 & H6).
      unfold c_nnz in *. cbn [c_rows c_cols c_elems] in *.
      eexists _, _. split; [rewrite (Coo_to_Csbr2_spec roff nbr rows coff nbc cols E) by done; reflexivity|].
      split; [intros x y b Hx Hy; by eapply csbr2_spmv_spec|].
      split; [done|]. split; [done|]. by apply (Hblocked _ _ _ _).
    - destruct B as [rows cols E]. unfold c_nnz in *. destruct Hc as (Hne & HE & Hb & Hs & H1 & H2 & H3 & H4).
      unfold c_nnz in *. cbn [c_rows c_cols c_elems] in *.
      eexists _, _. split; [rewrite (Coo_to_Csbr3_spec rows cols bs E) by done; reflexivity|].
      split; [intros x y b Hx Hy; by apply csbr3_balanced|].
      split; [done|]. split; [done|]. apply (Hblocked _ _ _ _). by apply ceil_off_blocking.
  Qed.

  Lemma same_elements_range rows cols E E' : same_elements E E' -> in_range rows cols E -> in_range rows cols E'.
  Proof.
    intros Hs HE. unfold in_range, same_elements in *.
    assert (Hf : forall l : list (elem T), Forall (fun e => row e < rows /\ col e < cols) l <-> Forall (fun c => fst (fst c) < rows /\ snd (fst c) < cols) (coords <$> l)).
    { intros l. by rewrite Forall_fmap. }
    rewrite Hf in *. by rewrite <- Hs.
  Qed.
  Lemma same_elements_length E E' : same_elements E E' -> length E = length E'.
  Proof. intros Hs. apply Permutation_length in Hs. by rewrite !fmap_length in Hs. Qed.
  Lemma same_elements_numbered roff nbr coff nbc E E' : same_elements E E' -> numbered roff nbr coff nbc E -> numbered roff nbr coff nbc E'.
  Proof.
    intros Hs [H1 (e & He & Hb)]. unfold same_elements in Hs.
    assert (Hc : forall E1 E2 : list (elem T), coords <$> E1 ≡ₚ coords <$> E2 -> forall e, e ∈ E1 -> exists e', e' ∈ E2 /\ row e' = row e /\ col e' = col e).
    { intros E1 E2 Hp e0 He0. assert (Hin : coords e0 ∈ (coords <$> E2)) by (rewrite <- Hp; by apply elem_of_list_fmap_1).
      apply elem_of_list_fmap in Hin as (e' & Hc & He'). exists e'. split; [done|]. unfold coords in Hc. by injection Hc. }
    unfold numbered, block_id in *. split.
    - intros e' He'. destruct (Hc _ _ (symmetry Hs) e' He') as (e0 & He0 & <- & <-). by apply H1.
    - destruct (Hc _ _ Hs e He) as (e' & He' & R1 & R2). exists e'. split; [done|]. by rewrite R1, R2.
  Qed.
  Lemma convertible_same c B B' : c_rows B' = c_rows B -> c_cols B' = c_cols B -> same_elements (c_elems B) (c_elems B') ->
    convertible c B -> convertible c B'.
  Proof.
    intros Hr Hc Hs. pose proof (same_elements_length _ _ Hs) as Hl.
    assert (Hne : c_elems B <> [] -> c_elems B' <> []) by (destruct (c_elems B), (c_elems B'); done).
    destruct c as [| |w|workers roff nbr coff nbc|roff nbr coff nbc|bs]; cbn [convertible]; unfold blockable, workers_ok, blockable3, c_nnz; rewrite ?Hr, ?Hc, <- ?Hl; try done.
    all: intros Hall; decompose [and] Hall; clear Hall; repeat match goal with |- _ /\ _ => split end; try done; eauto using same_elements_range, same_elements_numbered.
  Qed.
  (** every sequence of conversions of one matrix succeeds; every matrix built multiplies as
      the matrix the user started with (in the same order of additions: C40), and what is
      left is a permutation of the elements *)
  Theorem C41_conversion_sequences (cs : list conversion) B :
    in_range (c_rows B) (c_cols B) (c_elems B) -> c_rows B + 1 < itW -> c_nnz B < itW -> (forall c, c ∈ cs -> convertible c B) ->
    exists ms B', convert_all cs B = Ok (ms, B') /\ length ms = length cs /\
      c_rows B' = c_rows B /\ c_cols B' = c_cols B /\ same_elements (c_elems B) (c_elems B') /\
      forall m x y b, m ∈ ms -> c_cols B <= length x -> length y = c_rows B ->
        all_schedules (m x b) (heap_of b y) tt (heap_of b (spmv_by_column (c_elems B) x y)).
  Proof.
    revert B. induction cs as [|c cs IH]; intros B HB Hr Hn Hc.
    - exists [], B. split; [done|]. split; [done|]. split; [done|]. split; [done|]. split; [unfold same_elements; done|].
      intros m x y b Hm. by apply elem_of_nil in Hm.
    - destruct (convert_spec c B HB Hr Hn (Hc c ltac:(left))) as (m & B1 & H1 & Hm & Hr1 & Hc1 & Hs1 & Ho1).
      destruct (IH B1) as (ms & B2 & H2 & Hl2 & Hr2 & Hc2 & Hs2 & Hm2).
      + rewrite Hr1, Hc1. by eapply same_elements_range.
      + by rewrite Hr1.
      + unfold c_nnz in *. by rewrite <- (same_elements_length _ _ Hs1).
      + intros c' Hc'. eapply convertible_same; [exact Hr1|exact Hc1|exact Hs1|]. apply Hc. by right.
      + exists (m :: ms), B2. cbn [convert_all]. rewrite H1. cbn [mbind outcome_bind]. rewrite H2. split; [done|].
        split; [cbn; by rewrite Hl2|]. split; [by rewrite Hr2|]. split; [by rewrite Hc2|].
        split; [unfold same_elements in *; by etrans|].
        intros m' x y b [->|Hm']%elem_of_cons Hx Hy; [by apply Hm|].
        rewrite <- (by_column_rows (c_elems B) (c_elems B1)) by done. apply Hm2; [done|by rewrite Hc1|by rewrite Hr1].
  Qed.
  (** any two formats give the same y, bit for bit, for any value arithmetic *)
  Theorem C40_formats_agree (c1 c2 : conversion) B x y b :
    in_range (c_rows B) (c_cols B) (c_elems B) -> c_rows B + 1 < itW -> c_nnz B < itW -> convertible c1 B -> convertible c2 B ->
    c_cols B <= length x -> length y = c_rows B ->
    exists m1 B1 m2 B2 y', convert c1 B = Ok (m1, B1) /\ convert c2 B = Ok (m2, B2) /\
      all_schedules (m1 x b) (heap_of b y) tt (heap_of b y') /\ all_schedules (m2 x b) (heap_of b y) tt (heap_of b y') /\
      y' = spmv_by_column (c_elems B) x y.
  Proof.
    intros HB Hr Hn H1 H2 Hx Hy.
    destruct (convert_spec c1 B HB Hr Hn H1) as (m1 & B1 & E1 & S1 & _).
    destruct (convert_spec c2 B HB Hr Hn H2) as (m2 & B2 & E2 & S2 & _).
    exists m1, B1, m2, B2, (spmv_by_column (c_elems B) x y). split; [done|]. split; [done|]. split; [by apply S1|]. split; [by apply S2|done].
  Qed.

  (** ** C45 *)
  Theorem C45_empty_matrix_refuted (rows cols workers nbr nbc bs : nat) (roff coff : arr nat) :
    0 < bs -> rows + 1 < itW ->
    let B : coo T := Coo rows cols [] in
    (exists A B', Coo_to_Csr B = Ok (A, B')) /\
    Coo_to_Csbr workers B roff nbr coff nbc = Undef OutOfBounds /\
    Coo_to_Csbr2 B roff nbr coff nbc = Undef OutOfBounds /\
    Coo_to_Csbr3 B bs = Undef OutOfBounds.
  Proof.
    intros Hb Hr B. subst B.
    assert (Hid : calculate_block_id (@nil (elem T)) roff nbr coff nbc = Ok []) by (by apply for_range_empty).
    assert (Hidc : forall n, calculate_block_id_const (@nil (elem T)) bs bs n = Ok []) by (intros n; by apply for_range_empty).
    assert (Hs : sort_elements_blocks (@nil (elem T)) = Ok []) by (unfold sort_elements_blocks; by rewrite psort_isort by apply swo_compare_blocks).
    split; [|split; [|split]].
    - eexists _, _. apply Coo_to_Csr_spec; unfold c_nnz; cbn [c_rows c_cols c_elems length]; [constructor|lia|lia].
    - unfold Coo_to_Csbr. cbn [c_elems]. rewrite Hid. cbn [mbind outcome_bind]. rewrite Hs. reflexivity.
    - unfold Coo_to_Csbr2. cbn [c_elems]. rewrite Hid. cbn [mbind outcome_bind]. rewrite Hs. reflexivity.
    - unfold Coo_to_Csbr3. rewrite !div_ok by done. cbn [c_elems mbind outcome_bind]. rewrite Hidc. cbn [mbind outcome_bind]. rewrite Hs. reflexivity.
  Qed.
End C39_C45.

(** ** the hypotheses are met: a 4 x 5 matrix with a repeated coordinate, in 2 x 2 blocks of
    2 rows and 3/2 columns, 4 threads, 32-bit indices and 16-bit short indices *)
Lemma ex_blockable : @blockable default_widths Z ex_B [0; 2; 4] 2 [0; 3; 5] 2 /\ @workers_ok default_widths Z ex_B 4 /\ @blockable3 default_widths Z ex_B 3.
Proof.
  assert (HB : in_range (c_rows ex_B) (c_cols ex_B) (c_elems ex_B)) by (repeat constructor; cbn; lia).
  assert (Hbl : forall off nb n, off = [0; 2; 4] /\ nb = 2 /\ n = 4 \/ off = [0; 3; 5] /\ nb = 2 /\ n = 5 -> blocking off nb n).
  { intros off nb n [(-> & -> & ->)|(-> & -> & ->)]; (split; [done|]; split; [done|]; split; [done|]; intros [|[|b]] Hb; cbn; lia). }
  assert (Hnum : numbered (H := default_widths) [0; 2; 4] 2 [0; 3; 5] 2 (c_elems ex_B)).
  { eapply numbered_small; [by apply Hbl; auto|by apply Hbl; eauto|exact HB|done|apply default_big; done]. }
  unfold blockable, workers_ok, blockable3, c_nnz. cbn [c_rows c_cols c_elems ex_B length] in *. change (ceil_nb 4 3 * ceil_nb 5 3) with 4.
  repeat match goal with |- _ /\ _ => split end;
    first [exact Hnum | done | exact HB | by apply Hbl; auto | by apply Hbl; eauto | apply default_big; done | apply default_small; done | lia].
Qed.
Example C28_C41_ex : exact_arith Z 1%Z /\ in_range (c_rows ex_B) (c_cols ex_B) (c_elems ex_B) /\
  c_cols ex_B <= length ex_x /\ length ex_y = c_rows ex_B /\ c_rows ex_B + 1 < @itW default_widths /\ c_nnz ex_B < @itW default_widths /\
  (let _ := default_widths in
   forall c, c ∈ [ToCsbr 4 [0; 2; 4] 2 [0; 3; 5] 2; ToCsr; ToCswr 3; ToCsbr2 [0; 2; 4] 2 [0; 3; 5] 2; ToCsr2; ToCsbr3 3] -> convertible c ex_B) /\
  y_plus_Ax (c_elems ex_B) (c_cols ex_B) ex_x ex_y = [501; 12; 3; 70009]%Z.
Proof.
  destruct ex_blockable as (H1 & H2 & H3).
  split; [apply exact_Z|]. split; [repeat constructor; cbn; lia|]. split; [cbn; lia|]. split; [done|].
  split; [by apply default_big|]. split; [by apply default_big|]. split; [|done].
  cbv zeta. intros c Hc. repeat (apply elem_of_cons in Hc as [->|Hc]; cbn [convertible]; try done).
  - split; [lia|]. split; [by apply default_small|by apply default_big].
  - by apply elem_of_nil in Hc.
Qed.
(** constant block sizes *)
Example C28_const_ex : c_rows ex_B + 2 < @itW default_widths /\ c_cols ex_B + 2 < @itW default_widths /\ c_rows ex_B * c_cols ex_B < @itW default_widths.
Proof. split; [by apply default_big|]. split; by apply default_big. Qed.
(** C31: block size 3 makes the second block row ragged; the first is full *)
Lemma C31_any_widths `{Widths} : blockable3 ex_B 3 ->
  exists A B', Coo_to_Csbr3 ex_B 3 = Ok (A, B') /\ chunks_of A 0 [0; 1; 1] /\ chunks_of A 1 [1; 2; 3] /\ s3_block_size A = 3.
Proof.
  intros (Hne & HE & Hb & Hs & H1 & H2 & H3 & H4).
  eexists _, _. split; [apply (Coo_to_Csbr3_spec 4 5 3 (c_elems ex_B)); done|].
  split. { exists 0, 1. do 5 (split; [first [reflexivity|cbn; lia]|]). intros [|[|[|i]]] Hi; cbn in *; lia. }
  split; [|done].
  exists 1, 3. do 5 (split; [first [reflexivity|cbn; lia]|]). intros [|[|[|i]]] Hi; cbn in *; lia.
Qed.
Example C31_ex : let _ := default_widths in
  exists A B', Coo_to_Csbr3 ex_B 3 = Ok (A, B') /\ chunks_of A 0 [0; 1; 1] /\ (0 + 1) * 3 <= c_rows ex_B /\
    2 * length [0; 1; 1] < itW /\
    1 * s3_block_size A < length ex_y < (1 + 1) * s3_block_size A /\ 2 < length [1; 2; 3] < itW /\ chunks_of A 1 [1; 2; 3].
Proof.
  intros W. destruct (@C31_any_widths W (proj2 (proj2 ex_blockable))) as (A & B' & HA & H0 & H1 & Hs).
  exists A, B'. rewrite Hs. split; [done|]. split; [done|]. split; [cbn; lia|]. split; [by apply default_big|].
  split; [cbn; lia|]. split; [split; [cbn; lia|by apply default_big]|done].
Qed.
(** C35-C37: eight blocks with 1, 9, 0, 4, 4, 0, 0, 2 non-zeros, two threads: the threshold is 5 *)
Definition ex_nnz : list nat := [1; 9; 0; 4; 4; 0; 0; 2].
Definition ex_blocked : blocked Z := Blocked 1 (full [0; 8]) (full (seq 0 8)) 20 (fun _ => Ok 0) (fun _ => Ok 0)
  (fun k => Ok (nth k ex_nnz 0)) (fun _ _ _ _ _ => Ret tt).
Example C35_ex : @partition_input Z default_widths ex_blocked 2 0 8 (fun k => nth k ex_nnz 0) /\
  @partition_blockrow Z {| itW := 1000; sitW := 10 |} ex_blocked 2 0 8 = Ok ([0; 1; 4; 8], 4).
Proof.
  split; [|vm_compute; reflexivity]. unfold partition_input.
  repeat match goal with |- _ /\ _ => split end; first [done | lia | apply default_big; done].
Qed.
(** C38: three chunks, one of them empty, of the second block row of the example matrix *)
Lemma C38_any_widths `{Widths} : blockable ex_B [0; 2; 4] 2 [0; 3; 5] 2 -> workers_ok ex_B 4 ->
  exists A parts B', Coo_to_Csbr 4 ex_B (full [0; 2; 4]) 2 (full [0; 3; 5]) 2 = Ok (A, parts, B') /\
    aget (sb_ptr A) 1 = Ok 1 /\ aget (sb_ptr A) (1 + 1) = Ok 3.
Proof.
  intros (Hne & HE & Hr & Hc & H1 & H2 & H3 & H4 & H5 & H6) (W1 & W2 & W3).
  destruct (Coo_to_Csbr_spec [0; 2; 4] 2 4 [0; 3; 5] 2 5 (c_elems ex_B) Hr Hc HE Hne H1 H2 H3 H4 H5 H6 4 W1 W2 W3) as (parts & HA & _).
  eexists _, _, _. split; [exact HA|]. done.
Qed.
Example C38_ex : let _ := default_widths in
  exists A parts B', Coo_to_Csbr 4 ex_B (full [0; 2; 4]) 2 (full [0; 3; 5]) 2 = Ok (A, parts, B') /\
    aget (sb_ptr A) 1 = Ok 1 /\ aget (sb_ptr A) (1 + 1) = Ok 3 /\ nth 0 [1; 1; 2; 3] 0 = 1 /\ nth 3 [1; 1; 2; 3] 0 = 3.
Proof.
  intros W. destruct (@C38_any_widths W (proj1 ex_blockable) (proj1 (proj2 ex_blockable))) as (A & parts & B' & HA & H1 & H2).
  exists A, parts, B'. split; [exact HA|]. split; [exact H1|]. split; [exact H2|]. split; reflexivity.
Qed.
