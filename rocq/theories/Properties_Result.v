(** Properties_Result.v: C95, the program src/test/result.cpp that multiplies one matrix in every
    format and compares each result with that of CSR. *)
From Verif Require Export ResultProof Properties_Drivers Properties_Choice.

Section generic.
  Context {T : Type} `{Scalar T} {W : Widths}.
  Context (neq : T -> T -> bool).
  Implicit Types (F : fs) (B : coo T) (E : list (elem T)) (x y z : list T).
  (** the conversion [conv] of B gives a matrix whose product into y2, set to zero, is z *)
  Definition makes (conv : coo T -> outcome ((list T -> buf -> prog T unit) * coo T)) B x B' z : Prop :=
    exists W' m, conv B = Ok (m, B') /\ product (H0 := W') m /\ c_rows B' = c_rows B /\ c_cols B' = c_cols B /\ length z = c_rows B /\
      all_schedules (m x y2) (heap_of y2 (replicate (c_rows B) s0)) tt (heap_of y2 z).
  (** what check_results says of two vectors *)
  Definition verdict (v z : list T) (r : Z) : Prop :=
    (r = 0%Z \/ r = (-1)%Z) /\ (r = 0%Z <-> forall i a b, v !! i = Some a -> z !! i = Some b -> neq a b = false).
  Lemma verdict_unique v z r r' : verdict v z r -> verdict v z r' -> r = r'.
  Proof. intros [[-> | ->] H1] [[-> | ->] H2]; try done; [symmetry; apply H2, H1; done|apply H1, H2; done]. Qed.
  Lemma part_ok conv B x B' z v : makes conv B x B' z -> c_rows B < itW -> length v = c_rows B ->
    exists r, verdict v z r /\ all_schedules (compare_part neq conv B x) (both v (replicate (c_rows B) s0)) (r, B') (both v (replicate (c_rows B) s0)).
  Proof.
    intros (W' & m & H1 & H2 & H3 & _ & H4 & H5) Hr Hv. destruct (C67_check_results neq v z (c_rows B) Hr) as (r & C1 & C2 & C3); [lia|lia|].
    exists r. split; [split; [done|]|eapply part_spec; try done; by exists W']. rewrite C3. split; [|naive_solver]. intros Hx i a b Ha. apply Hx; [|done]. apply lookup_lt_Some in Ha. lia.
  Qed.
  (** the conversions that leave the elements in the source *)
  Definition kept B B' : Prop := c_rows B' = c_rows B /\ c_cols B' = c_cols B /\ same_elements (c_elems B) (c_elems B') /\
    forall x y, spmv_by_column (c_elems B') x y = spmv_by_column (c_elems B) x y.
  Lemma kept_trans B B' B'' : kept B B' -> kept B' B'' -> kept B B''.
  Proof.
    intros (A1 & A2 & A3 & A4) (C1 & C2 & C3 & C4). split; [congruence|]. split; [congruence|]. split; [unfold same_elements in *; by etrans|]. intros x y. by rewrite C4.
  Qed.
  Lemma kept_csr_able B B' : kept B B' -> csr_able B -> csr_able B'.
  Proof.
    intros (A1 & A2 & A3 & _) (H1 & H2 & H3). split; [rewrite A1, A2; by eapply same_elements_range|]. unfold c_nnz in *. by rewrite A1, <- (same_elements_length _ _ A3).
  Qed.
  Lemma kept_const_able B B' s workers : kept B B' -> const_able B s workers -> const_able B' s workers.
  Proof.
    intros (A1 & A2 & A3 & _) (H1 & H2 & H3 & H4 & H5 & H6 & H7). pose proof (same_elements_length _ _ A3) as Hl. unfold const_able, workers_ok, c_nnz in *. rewrite A1, A2, <- Hl.
    split; [done|]. split; [destruct (c_elems B), (c_elems B'); done|]. split; [by eapply same_elements_range|]. done.
  Qed.
End generic.

Section conversions.
  Context {T : Type} `{Scalar T} {W : Widths}.
  Implicit Types (B : coo T) (x y z : list T).
  Lemma convert_product (c : conversion) B m B' : (forall bs, c <> ToCsbr3 bs) -> convert c B = Ok (m, B') -> product m.
  Proof.
    intros Hc HA. destruct c; cbn [convert] in HA; [..|by destruct (Hc block_size)]; repeat (apply bind_ok in HA as (? & ? & HA); repeat case_match; simplify_eq/=); first [apply product_csr | apply product_csr2 | apply product_cswr | apply product_csbr | apply product_csbr2].
  Qed.
  Lemma makes_convert (c : conversion) B x : csr_able B -> convertible c B -> (forall bs, c <> ToCsbr3 bs) -> length x = c_cols B ->
    exists B', makes (convert c) B x B' (spmv_by_column (c_elems B) x (replicate (c_rows B) s0)) /\ kept B B'.
  Proof.
    intros (H1 & H2 & H3) Hc Hn Hx. destruct (convert_spec c B H1 H2 H3 Hc) as (m & B' & HA & Hm & D1 & D2 & D3 & D4). exists B'.
    split; [exists W, m; split; [done|]; split; [by eapply convert_product|]; do 2 (split; [done|]); split; [by rewrite spmv_by_column_length, replicate_length|]|].
    - apply Hm; [lia|by rewrite replicate_length].
    - split; [done|]. split; [done|]. split; [done|]. intros x0 y. by apply by_column_rows.
  Qed.
  Lemma cgbr_source choose bal workers B roff nbr coff nbc A balanced parts B' : Coo_to_Cgbr choose bal workers B roff nbr coff nbc = Ok (A, balanced, parts, B') ->
    c_rows B' = c_rows B /\ c_cols B' = c_cols B.
  Proof. unfold Coo_to_Cgbr, cgbr_fill. cbv zeta. intros HA. inv_ok HA. injection HA as <- <- <- <-. inv_ok E3. by injection E3 as <- <-. Qed.
  Lemma cgbr2_source make workers B roff nbr coff nbc A parts B' : Coo_to_Cgbr2 make workers B roff nbr coff nbc = Ok (A, parts, B') ->
    c_rows B' = c_rows B /\ c_cols B' = c_cols B.
  Proof. unfold Coo_to_Cgbr2, cgbr_fill. cbv zeta. intros HA. inv_ok HA. injection HA as <- <- <-. inv_ok E3. by injection E3 as <- <-. Qed.
  Lemma same_result (p : prog T unit) h b z z' : all_schedules p h tt (heap_of b z) -> all_schedules p h tt (heap_of b z') -> length z = length z' -> z = z'.
  Proof.
    intros Hz Hz' Hl. destruct (all_schedules_unique _ _ _ _ _ _ Hz (all_schedules_reachable _ _ _ _ Hz')) as [_ Hu]; [intros c Hc; inversion Hc|].
    pose proof (read_back_heap_of b z) as R1. pose proof (read_back_heap_of b z') as R2. rewrite Hl, <- Hu in R1. congruence.
  Qed.
  Lemma makes_cgbr choose bal B s workers x : const_able B s workers -> short_able s -> length x = c_cols B ->
    exists B' z, makes (fun B => '(A, balanced, parts, B) ← Coo_to_Cgbr_const choose bal workers B s s; Ok (cgbr_spmv A balanced parts, B)) B x B' z /\
      (forall one : T, exact_arith T one -> distinct_coords (c_elems B) -> z = y_plus_Ax (c_elems B) (c_cols B) x (replicate (c_rows B) s0)).
  Proof.
    intros Ha Hsh Hx. destruct (cgbr_usable choose bal B s workers Ha Hsh) as (A & balanced & parts & B' & HA & _ & _ & _ & Hs).
    destruct (Hs x (replicate (c_rows B) s0) y2 Hx) as (z & Hz & Hz'); [by rewrite replicate_length|]. exists B', z. split.
    - exists W. eexists. rewrite HA. split; [reflexivity|]. split; [apply product_cgbr|].
      assert (HD : c_rows B' = c_rows B /\ c_cols B' = c_cols B).
      { unfold Coo_to_Cgbr_const in HA. apply bind_ok in HA as ([? ?] & _ & HA). apply bind_ok in HA as ([? ?] & _ & HA).
        by apply cgbr_source in HA. }
      destruct HD as [D1 D2]. done.
    - intros one SR Hd. pose proof (const_small B s workers Ha Hsh) as Hsm. destruct Ha as (H1 & H2 & H3 & H4 & H5 & H6 & HW). destruct Hsh as (S1 & S2 & S3).
      destruct (C33_cgbr_const_spmv choose bal B s s workers x (replicate (c_rows B) s0) y2 one SR) as (A2 & bal2 & parts2 & B2 & HA2 & Hs2 & _); try done; [|lia|by rewrite replicate_length|].
      { intros br bc Hr Hc L _. split; [by apply Hsm|by apply submatrix_distinct]. }
      rewrite HA in HA2. injection HA2 as <- <- <- <-. eapply same_result; [exact Hz'|exact Hs2|]. unfold y_plus_Ax; by rewrite Hz, imap_length, replicate_length.
  Qed.
  Lemma makes_cgbr2 choose balanced B s workers x : const_able B s workers -> short_able s -> length x = c_cols B ->
    exists B' z, makes (fun B => '(A, parts, B) ← Coo_to_Cgbr2_const (make_block2 choose) workers B s s; Ok (cgbr2_spmv A balanced parts, B)) B x B' z /\
      (forall one : T, exact_arith T one -> distinct_coords (c_elems B) -> z = y_plus_Ax (c_elems B) (c_cols B) x (replicate (c_rows B) s0)).
  Proof.
    intros Ha Hsh Hx. destruct (cgbr2_usable choose balanced B s workers Ha Hsh) as (A & parts & B' & HA & _ & _ & _ & Hs).
    destruct (Hs x (replicate (c_rows B) s0) y2 Hx) as (z & Hz & Hz'); [by rewrite replicate_length|]. exists B', z. split.
    - exists W. eexists. rewrite HA. split; [reflexivity|]. split; [apply product_cgbr2|].
      assert (HD : c_rows B' = c_rows B /\ c_cols B' = c_cols B).
      { unfold Coo_to_Cgbr2_const in HA. apply bind_ok in HA as ([? ?] & _ & HA). apply bind_ok in HA as ([? ?] & _ & HA).
        by apply cgbr2_source in HA. }
      destruct HD as [D1 D2]. done.
    - intros one SR Hd. pose proof (const_small B s workers Ha Hsh) as Hsm. destruct Ha as (H1 & H2 & H3 & H4 & H5 & H6 & HW). destruct Hsh as (S1 & S2 & S3).
      destruct (C34_cgbr2_const_spmv choose B s s workers x (replicate (c_rows B) s0) y2 one SR) as (A2 & parts2 & B2 & HA2 & Hs2); try done; [|lia|by rewrite replicate_length|].
      { intros br bc L Hr Hc HL _. split; [by apply Hsm|]. eapply same_elements_distinct; [unfold same_elements in *; symmetry; exact HL|]. by apply submatrix_distinct. }
      rewrite HA in HA2. injection HA2 as <- <- <-. eapply same_result; [exact Hz'|exact (Hs2 balanced)|]. unfold y_plus_Ax; by rewrite Hz, imap_length, replicate_length.
  Qed.
End conversions.

Section C95.
  Context {T : Type} `{Scalar T} {W : Widths} (RT : repr T) (k : nat) (scan_g : bytes -> option T * bytes).
  Context (neq : T -> T -> bool) (rand : nat -> T) (workers : nat) (logbeta : nat -> nat -> N) (val_size : N).
  Context (choose chooses : nat -> nat -> nat -> kind) (bal bals : nat -> nat -> list (list nat) -> bool).
  Context (choose2 : list (elem T) -> nat -> nat -> kind2) (balanced2 : bool).
  Implicit Types (F : fs) (B : coo T) (E : list (elem T)) (x y z : list T) (name : bytes) (args : list bytes).
  Notation result_with := (result_with RT k scan_g neq rand workers logbeta val_size choose chooses bal bals choose2 balanced2).
  Notation result_main := (result_main RT k scan_g neq rand workers logbeta val_size choose chooses bal bals choose2 balanced2).
  Notation compare_formats := (compare_formats neq rand workers logbeta val_size choose chooses bal bals choose2 balanced2).
  Notation reads := (reads RT k scan_g).
  Notation picks := (picks workers logbeta val_size).
  Notation sizes_ok := (sizes_ok workers val_size).
  Notation large := (large workers).
  (** the vector that the program multiplies with *)
  Notation the_x B := (vector_random rand (c_cols B)).

  Lemma result_read start name args F B : reads F name B ->
    result_with start (name :: args) F = (compare_formats start (blank B) ≫= fun r => Ret (0%Z, r)).
  Proof using Type.
    intros (A & HA & HB). unfold Result.result_with. rewrite HA. cbn [lift mbind prog_bind pbind]. cbn [Z.eqb negb use mbind outcome_bind].
    rewrite (coo_of_read_spec A B HB). reflexivity.
  Qed.
  (** the size is not changed by the two corrections of lines 50 and 51 *)
  Lemma clip (r c s : nat) : s <= r -> s <= c -> (if c <? (if r <? s then r else s) then c else if r <? s then r else s) = s.
  Proof using Type. clear. intros H1 H2. rewrite (proj2 (Nat.ltb_ge r s)) by done. by rewrite (proj2 (Nat.ltb_ge c s)) by done. Qed.
  Lemma blank_by_column B x y : spmv_by_column (c_elems (blank B)) x y = spmv_by_column (c_elems B) x y.
  Proof using Type.
    unfold spmv_by_column, spmv_in_order. apply imap_ext. intros i v _. apply row_acc_coords.
    set (ckey := fun c : nat * nat * T => snd (fst c)). change (fmap coords) with (map (coords (T := T))).
    rewrite !(isort_map (bykey col) (bykey ckey) coords) by done. f_equal. unfold blank. cbn [c_elems].
    change (map coords) with (fmap (M := list) (coords (T := T))). rewrite <- list_fmap_compose. by apply list_fmap_ext.
  Qed.

  (** ** as it is written: the two result vectors come from new[], and the first product reads them *)
  Theorem C95_as_written_refuted name args F B : reads F name B -> csr_able B -> sizes_ok B -> c_elems B <> [] ->
    always_undefined (result_main (name :: args) F) ∅.
  Proof using Type.
    intros HR HB Hs Hne. unfold Result.result_main. rewrite (result_read _ name args F B HR).
    apply always_undefined_bind_l. unfold Result.compare_formats. destruct (C81_picks (fun _ => rand) (fun _ _ => 0%Z) workers logbeta val_size B Hs) as (s & Hp & _).
    change (c_rows (blank B)) with (c_rows B). change (c_cols (blank B)) with (c_cols B). unfold Properties_Drivers.picks in Hp. rewrite Hp. cbn [lift mbind prog_bind pbind].
    eapply always_undefined_bind_r; [apply all_schedules_alloc; intros i _; apply lookup_empty|].
    eapply always_undefined_bind_r; [apply all_schedules_alloc; intros i _; rewrite set_cells_lookup; rewrite decide_False by (by intros [E _]); apply lookup_empty|].
    destruct (csr_computes (blank B) (blank_csr_able B HB)) as (A & B' & HA & _). rewrite HA. cbn [lift mbind prog_bind pbind].
    apply always_undefined_bind_l.
    assert (He : exists e, e ∈ c_elems (blank B)).
    { unfold blank. cbn [c_elems]. destruct (c_elems B) as [|e E]; [done|]. eexists. rewrite fmap_cons. left. }
    destruct He as [e He]. apply (csr_spmv_uninit (blank B) A B' _ _ _ e (blank_csr_able B HB) HA He).
    pose proof (blank_csr_able B HB) as (Hin & _). unfold in_range in Hin. rewrite Forall_forall in Hin. destruct (Hin e He) as [Hr _]. change (c_rows (blank B)) with (c_rows B) in Hr.
    rewrite set_cells_lookup. rewrite decide_False by (by intros [E _]). rewrite set_cells_lookup. by rewrite decide_True.
  Qed.

  (** ** with the two vectors set to zero instead *)
  Lemma short_able_wide s : 0 < s -> short_able s -> short_able (H0 := with_short W itW) s.
  Proof using Type. clear. intros H1 (_ & H2 & _). split; [|split; [exact H2|by left]]. change (2 * s <= itW + 1). nia. Qed.
  Lemma compare_run B s : picks (c_rows B) (c_cols B) s -> s <= c_rows B -> s <= c_cols B -> const_able B s workers -> short_able s -> c_rows B + 33 < itW ->
    let v := spmv_by_column (c_elems B) (the_x B) (replicate (c_rows B) s0) in
    exists r r5 r6 r7 z5 z6 z7, verdict neq v v r /\ verdict neq v z5 r5 /\ verdict neq v z6 r6 /\ verdict neq v z7 r7 /\
      (forall one : T, exact_arith T one -> distinct_coords (c_elems B) -> z5 = v /\ z6 = v /\ z7 = v) /\
      all_schedules (compare_formats vector_zero B) ∅ [r; r; r; r; r5; r6; r7] ∅.
  Proof using Type.
    intros Hp L1 L2 Ha Hsh H33. cbv zeta. set (x := the_x B). set (v := spmv_by_column (c_elems B) x (replicate (c_rows B) s0)).
    assert (Hx : length x = c_cols B) by (unfold x, vector_random; by rewrite fmap_length, seq_length).
    assert (Hv : length v = c_rows B) by (unfold v; by rewrite spmv_by_column_length, replicate_length).
    assert (Hc : csr_able B). { destruct Ha as (_ & _ & A3 & A4 & _ & _ & (_ & _ & A9)). split; [done|]. clear -A4 A9. lia. }
    assert (HrW : c_rows B < itW) by (clear -H33; lia).
    destruct (csr_computes B Hc) as (A & B0 & HA & (_ & _ & _ & Hcsr) & _).
    destruct (Hcsr x (replicate (c_rows B) s0) y1 Hx) as [_ Hm]; [by rewrite replicate_length|]. fold v in Hm.
    assert (Hk0 : kept B B0).
    { destruct Hc as (C1 & C2 & C3). destruct (convert_spec ToCsr B C1 C2 C3 Logic.I) as (m & B0' & HA' & _ & D1 & D2 & D3 & D4). cbn [convert] in HA'. rewrite HA in HA'.
      cbn [mbind outcome_bind] in HA'. injection HA' as _ <-. split; [done|]. split; [done|]. split; [done|]. intros x0 y. by apply by_column_rows. }
    (* one part on a source that still holds the elements *)
    assert (Hpart : forall c B1, kept B B1 -> convertible c B -> (forall bs, c <> ToCsbr3 bs) -> exists B2, makes (convert c) B1 x B2 v /\ kept B B2).
    { intros c B1 Hk Hcv Hbs. pose proof Hk as (K1 & K2 & K3 & K4). destruct (makes_convert c B1 x) as (B2 & M1 & M2); [by eapply kept_csr_able|by eapply convertible_same|done|by rewrite K2|].
      exists B2. split; [|by eapply kept_trans]. by rewrite K4, K1 in M1. }
    pose proof (const_able_blockable B s workers Ha) as Hb. pose proof Ha as (S1 & _ & _ & A4 & A5 & _ & HW).
    destruct (Hpart ToCsr2 B0 Hk0) as (B1 & M1 & Hk1); [done|done|].
    assert (M2 : exists B2, makes conv_cswr B1 x B2 v /\ kept B B2).
    { pose proof Hk1 as (K1 & K2 & K3 & K4). destruct (makes_convert (W := with_short W 256) (ToCswr DEFAULT_CSWR_WIDTH) B1 x) as (B2 & M1' & M2').
      - exact (kept_csr_able _ _ Hk1 Hc).
      - cbn [convertible]. change (0 < 32 /\ 32 <= 256 /\ c_rows B1 + 32 + 1 < itW). rewrite K1. clear -H33. lia.
      - done.
      - by rewrite K2.
      - exists B2. split; [|by eapply kept_trans]. by rewrite K4, K1 in M1'. }
    destruct M2 as (B2 & M2 & Hk2).
    assert (M3 : exists B3, makes (conv_csbr workers s) B2 x B3 v /\ kept B B3).
    { destruct (Hpart (ToCsbr workers (const_off (c_rows B) s) (const_nb (c_rows B) s) (const_off (c_cols B) s) (const_nb (c_cols B) s)) B2 Hk2) as (B3 & (W' & m & E1 & E2) & Hk3); [by split|done|].
      exists B3. split; [|done]. exists W', m. split; [|exact E2]. unfold conv_csbr, Coo_to_Csbr_const. destruct Hk2 as (K1 & K2 & _). rewrite K1, K2, !const_offsets_spec by (first [exact S1|exact A4|exact A5]). exact E1. }
    destruct M3 as (B3 & M3 & Hk3).
    assert (M4 : exists B4, makes (conv_csbr2 s) B3 x B4 v /\ kept B B4).
    { destruct (Hpart (ToCsbr2 (const_off (c_rows B) s) (const_nb (c_rows B) s) (const_off (c_cols B) s) (const_nb (c_cols B) s)) B3 Hk3) as (B4 & (W' & m & E1 & E2) & Hk4); [done|done|].
      exists B4. split; [|done]. exists W', m. split; [|exact E2]. unfold conv_csbr2, Coo_to_Csbr2_const. destruct Hk3 as (K1 & K2 & _). rewrite K1, K2, !const_offsets_spec by (first [exact S1|exact A4|exact A5]). exact E1. }
    destruct M4 as (B4 & M4 & Hk4).
    pose proof Hk4 as (K1 & K2 & K3 & K4). pose proof (kept_const_able _ _ _ _ Hk4 Ha) as Ha4.
    assert (Hx4 : length x = c_cols B4) by congruence.
    destruct (makes_cgbr (W := with_short W itW) choose bal B4 s workers x Ha4 (short_able_wide s S1 Hsh) Hx4) as (B5 & z5 & M5 & X5).
    assert (Hrest : forall B' z conv, makes conv B4 x B' z -> restore B4 B' = B4).
    { intros B' z conv Hmk. clear -Hmk. destruct Hmk as (W' & m & _ & _ & D1 & D2 & _). unfold restore. rewrite D1, D2. by destruct B4. }
    pose proof (Hrest _ _ _ M5) as R5.
    destruct (makes_cgbr chooses bals B4 s workers x Ha4 Hsh Hx4) as (B6 & z6 & M6 & X6). pose proof (Hrest _ _ _ M6) as R6.
    destruct (makes_cgbr2 choose2 balanced2 B4 s workers x Ha4 Hsh Hx4) as (B7 & z7 & M7 & X7).
    assert (Hrun : forall conv Bi Bj z, makes conv Bi x Bj z -> c_rows Bi = c_rows B -> exists r, verdict neq v z r /\
      all_schedules (compare_part neq conv Bi x) (both v (replicate (c_rows B) s0)) (r, Bj) (both v (replicate (c_rows B) s0))).
    { intros conv Bi Bj z Hmk Hr. rewrite <- Hr. apply part_ok; [done|by rewrite Hr|congruence]. }
    destruct (Hrun _ _ _ _ M1 (proj1 Hk0)) as (r1 & V1 & P1). destruct (Hrun _ _ _ _ M2 (proj1 Hk1)) as (r2 & V2 & P2).
    destruct (Hrun _ _ _ _ M3 (proj1 Hk2)) as (r3 & V3 & P3). destruct (Hrun _ _ _ _ M4 (proj1 Hk3)) as (r4 & V4 & P4).
    destruct (Hrun _ _ _ _ M5 K1) as (r5 & V5 & P5). destruct (Hrun _ _ _ _ M6 K1) as (r6 & V6 & P6). destruct (Hrun _ _ _ _ M7 K1) as (r7 & V7 & P7).
    assert (r2 = r1) as -> by (by eapply verdict_unique). assert (r3 = r1) as -> by (by eapply verdict_unique). assert (r4 = r1) as -> by (by eapply verdict_unique).
    exists r1, r5, r6, r7, z5, z6, z7. split; [done|]. split; [done|]. split; [done|]. split; [done|]. split.
    - intros one SR Hd. assert (Hd4 : distinct_coords (c_elems B4)) by (by eapply same_elements_distinct).
      assert (Hev : y_plus_Ax (c_elems B4) (c_cols B4) x (replicate (c_rows B4) s0) = v).
      { unfold v. rewrite <- K4. rewrite <- K1. symmetry. apply (spmv_by_column_exact one SR (c_rows B4)). by apply (kept_csr_able _ _ Hk4 Hc). }
      rewrite <- Hev. split; [by eapply X5|]. split; [by eapply X6|by eapply X7].
    - unfold Result.compare_formats. unfold Properties_Drivers.picks in Hp. rewrite Hp. cbn [lift mbind prog_bind pbind]. cbv zeta. rewrite clip by done.
      eapply all_schedules_bind; [apply vector_zero_spec|]. eapply all_schedules_bind; [apply setup2_spec|]. rewrite HA. cbn [lift mbind prog_bind pbind].
      eapply all_schedules_bind; [apply into1; [exact (product_allocs _ x y1 (product_csr A))|exact Hm]|].
      eapply all_schedules_bind; [exact P1|]. cbn beta iota. eapply all_schedules_bind; [exact P2|]. cbn beta iota. eapply all_schedules_bind; [exact P3|]. cbn beta iota.
      eapply all_schedules_bind; [exact P4|]. cbn beta iota. eapply all_schedules_bind; [exact P5|]. cbn beta iota. rewrite R5. eapply all_schedules_bind; [exact P6|]. cbn beta iota. rewrite R6.
      eapply all_schedules_bind; [exact P7|]. cbn beta iota. destruct M7 as (_ & _ & _ & _ & D7 & _). rewrite D7, K1.
      eapply all_schedules_bind; [by apply teardown1_spec|]. eapply all_schedules_bind; [apply teardown2_spec; by rewrite replicate_length|]. apply all_schedules_ret.
  Qed.
  (** the program with both vectors set to zero runs to the end on every schedule, releases them, and
      reports the same for Csr2, Cswr, Csbr and Csbr2: no difference, if and only if every value of
      the result equals itself (a NaN does not); for the other three it reports what it finds *)
  Theorem C95_repaired name args F B s : reads F name B -> sizes_ok B -> picks (c_rows B) (c_cols B) s -> const_able B s workers -> short_able s -> c_rows B + 33 < itW ->
    exists r r5 r6 r7, all_schedules (result_with vector_zero (name :: args) F) ∅ (0%Z, [r; r; r; r; r5; r6; r7]) ∅ /\
      (forall q, q ∈ [r; r5; r6; r7] -> q = 0%Z \/ q = (-1)%Z) /\
      (r = 0%Z <-> forall t, t ∈ spmv_by_column (c_elems B) (the_x B) (replicate (c_rows B) s0) -> neq t t = false).
  Proof using Type.
    intros HR Hs Hp Ha Hsh H33. destruct (C81_picks (fun _ => rand) (fun _ _ => 0%Z) workers logbeta val_size B Hs) as (s' & Hp' & Hc). unfold Properties_Drivers.picks in *. rewrite Hp in Hp'. injection Hp' as <-.
    destruct Hc as [[-> _]|(_ & _ & L1 & L2 & _)]; [by destruct Ha as [? _]; lia|].
    destruct (compare_run (blank B) s Hp (Nat.lt_le_incl _ _ L1) (Nat.lt_le_incl _ _ L2) (blank_const_able B s workers Ha) Hsh H33) as (r & r5 & r6 & r7 & z5 & z6 & z7 & V1 & V5 & V6 & V7 & _ & Hrun).
    exists r, r5, r6, r7. split; [|split].
    - rewrite (result_read _ name args F B HR). eapply all_schedules_bind; [exact Hrun|]. apply all_schedules_ret.
    - intros q Hq. repeat (apply elem_of_cons in Hq as [->|Hq]; [by destruct V1, V5, V6, V7|]). by apply elem_of_nil in Hq.
    - destruct V1 as [_ V1]. rewrite V1, blank_by_column. change (c_cols (blank B)) with (c_cols B). change (c_rows (blank B)) with (c_rows B). split.
      + intros Hx t Ht. apply elem_of_list_lookup in Ht as [i Hi]. by eapply Hx.
      + intros Hx i a b Ha' Hb. rewrite Ha' in Hb. injection Hb as <-. apply Hx. by eapply elem_of_list_lookup_2.
  Qed.
  (** in exact arithmetic, and with no position listed twice, it finds no difference at all *)
  Theorem C95_exact (one : T) name args F B s : exact_arith T one -> (forall t, neq t t = false) -> distinct_coords (c_elems B) ->
    reads F name B -> sizes_ok B -> picks (c_rows B) (c_cols B) s -> const_able B s workers -> short_able s -> c_rows B + 33 < itW ->
    all_schedules (result_with vector_zero (name :: args) F) ∅ (0%Z, [0; 0; 0; 0; 0; 0; 0]%Z) ∅.
  Proof using Type.
    intros SR Hneq Hd HR Hs Hp Ha Hsh H33. destruct (C81_picks (fun _ => rand) (fun _ _ => 0%Z) workers logbeta val_size B Hs) as (s' & Hp' & Hc). unfold Properties_Drivers.picks in *. rewrite Hp in Hp'. injection Hp' as <-.
    destruct Hc as [[-> _]|(_ & _ & L1 & L2 & _)]; [by destruct Ha as [? _]; lia|].
    destruct (compare_run (blank B) s Hp (Nat.lt_le_incl _ _ L1) (Nat.lt_le_incl _ _ L2) (blank_const_able B s workers Ha) Hsh H33) as (r & r5 & r6 & r7 & z5 & z6 & z7 & V1 & V5 & V6 & V7 & HX & Hrun).
    destruct (HX one SR) as (-> & -> & ->). { unfold distinct_coords, blank in *. cbn [c_elems]. rewrite <- list_fmap_compose. done. }
    assert (Hz : forall q v, verdict neq v v q -> q = 0%Z).
    { intros q v [_ Hq]. apply Hq. intros i a b Hi Hb. rewrite Hi in Hb. injection Hb as <-. apply Hneq. }
    apply Hz in V1 as ->, V5 as ->, V6 as ->, V7 as ->.
    rewrite (result_read _ name args F B HR). eapply all_schedules_bind; [exact Hrun|]. apply all_schedules_ret.
  Qed.
  (** ** a matrix that is too small for the number of threads: the block size is 0, and even the
      repaired program divides by it, after the first two comparisons *)
  Theorem C95_small_matrix_refuted name args F B : reads F name B -> csr_able B -> sizes_ok B -> ~ large B -> c_rows B + 33 < itW ->
    always_undefined (result_with vector_zero (name :: args) F) ∅.
  Proof using Type.
    intros HR HB Hs Hl H33. rewrite (result_read _ name args F B HR). apply always_undefined_bind_l. apply blank_csr_able in HB.
    destruct (C81_picks (fun _ => rand) (fun _ _ => 0%Z) workers logbeta val_size B Hs) as (s & Hp & [[-> _]|(_ & _ & _ & _ & Hl')]); [|done].
    change (c_rows B) with (c_rows (blank B)) in Hp, H33. change (c_cols B) with (c_cols (blank B)) in Hp. revert HB Hp H33. generalize (blank B). clear -workers. intros B Hc Hp H33.
    set (x := the_x B). set (v := spmv_by_column (c_elems B) x (replicate (c_rows B) s0)).
    assert (Hx : length x = c_cols B) by (unfold x, vector_random; by rewrite fmap_length, seq_length).
    assert (Hv : length v = c_rows B) by (unfold v; by rewrite spmv_by_column_length, replicate_length).
    assert (HrW : c_rows B < itW) by (clear -H33; lia).
    destruct (csr_computes B Hc) as (A & B0 & HA & (_ & _ & _ & Hcsr) & _).
    destruct (Hcsr x (replicate (c_rows B) s0) y1 Hx) as [_ Hm]; [by rewrite replicate_length|]. fold v in Hm.
    assert (Hk0 : kept B B0).
    { destruct Hc as (C1 & C2 & C3). destruct (convert_spec ToCsr B C1 C2 C3 Logic.I) as (m & B0' & HA' & _ & D1 & D2 & D3 & D4). cbn [convert] in HA'. rewrite HA in HA'.
      cbn [mbind outcome_bind] in HA'. injection HA' as _ <-. split; [done|]. split; [done|]. split; [done|]. intros x0 y. by apply by_column_rows. }
    pose proof Hk0 as (K1 & K2 & K3 & K4).
    destruct (makes_convert ToCsr2 B0 x) as (B1 & M1 & M1'); [by eapply kept_csr_able|done|done|by rewrite K2|]. rewrite K4, K1 in M1. fold v in M1.
    pose proof (kept_trans _ _ _ Hk0 M1') as (J1 & J2 & J3 & J4).
    destruct (makes_convert (W := with_short W 256) (ToCswr DEFAULT_CSWR_WIDTH) B1 x) as (B2 & M2 & M2').
    { exact (kept_csr_able _ _ (kept_trans _ _ _ Hk0 M1') Hc). }
    { cbn [convertible]. change (0 < 32 /\ 32 <= 256 /\ c_rows B1 + 32 + 1 < itW). rewrite J1. clear -H33. lia. }
    { done. } { by rewrite J2. }
    rewrite J4, J1 in M2. fold v in M2.
    assert (Hrun : forall conv Bi Bj z, makes conv Bi x Bj z -> c_rows Bi = c_rows B -> exists r, verdict neq v z r /\
      all_schedules (compare_part neq conv Bi x) (both v (replicate (c_rows B) s0)) (r, Bj) (both v (replicate (c_rows B) s0))).
    { intros conv Bi Bj z Hmk Hr. rewrite <- Hr. apply part_ok; [done|by rewrite Hr|congruence]. }
    destruct (Hrun _ _ _ _ M1 K1) as (r1 & V1 & P1). destruct (Hrun _ _ _ _ M2 J1) as (r2 & V2 & P2).
    unfold Result.compare_formats. unfold Properties_Drivers.picks in Hp. rewrite Hp. cbn [lift mbind prog_bind pbind]. cbv zeta. rewrite clip by lia.
    eapply always_undefined_bind_r; [apply vector_zero_spec|]. eapply always_undefined_bind_r; [apply setup2_spec|]. rewrite HA. cbn [lift mbind prog_bind pbind].
    eapply always_undefined_bind_r; [apply into1; [exact (product_allocs _ x y1 (product_csr A))|exact Hm]|].
    eapply always_undefined_bind_r; [exact P1|]. cbn beta iota. eapply always_undefined_bind_r; [exact P2|]. cbn beta iota.
    apply always_undefined_bind_l. unfold compare_part, conv_csbr, Coo_to_Csbr_const. rewrite const_offsets_0. cbn [lift mbind outcome_bind prog_bind pbind]. apply always_undefined_fail.
  Qed.
  (** ** no argument, or a file the reader refuses (also one that does not exist): exit code 1, nothing compared *)
  Theorem C95_errors start : (forall F, result_with start [] F = Ret (1%Z, [])) /\
    (forall name args F ret A, read_file RT k scan_g F name = Ok (ret, A) -> ret <> 0%Z -> result_with start (name :: args) F = Ret (1%Z, [])) /\
    (forall name args F, F !! name = None -> result_with start (name :: args) F = Ret (1%Z, [])).
  Proof using Type.
    assert (Hgen : forall name args F ret A, read_file RT k scan_g F name = Ok (ret, A) -> ret <> 0%Z -> result_with start (name :: args) F = Ret (1%Z, [])).
    { intros name args F ret A HA Hr. unfold Result.result_with. rewrite HA. cbn [lift mbind prog_bind pbind]. by rewrite (proj2 (Z.eqb_neq ret 0) Hr). }
    split; [done|]. split; [exact Hgen|].
    intros name args F HF. eapply (Hgen _ _ _ (-1)%Z None); [|done]. unfold Drivers.read_file, read_COO. rewrite HF.
    by destruct (string_ends_with name (str ".bin")), (string_ends_with name (str ".mtx")).
  Qed.
End C95.


(** A 5 x 5 matrix in a file, with 1-byte indices, on one thread: all the hypotheses hold. *)
Definition ex_D95 : coo Z := Coo 5 5 [Elem 3 0 5 0; Elem 0 2 2 0; Elem 1 1 1 0; Elem 2 2 3 0; Elem 4 4 9 0]%Z.
Definition ex_fs95 (B : coo Z) : fs := {[str "m.bin" := write_bin_COO ex_RZ 1 B]}.
Example C95_ex :
  @reads Z ex_W16 ex_RZ 1 ex_scan (ex_fs95 ex_D95) (str "m.bin") ex_D95 /\ @csr_able Z ex_W16 ex_D95 /\
  @picks 1 (fun _ _ => 1%N) 4 5 5 2 /\ sizes_ok 1 4 ex_D95 /\ @const_able Z ex_W16 ex_D95 2 1 /\ @short_able ex_W16 2 /\ c_rows ex_D95 + 33 < @itW ex_W16 /\
  distinct_coords (c_elems ex_D95) /\ c_elems ex_D95 <> [] /\ exact_arith Z 1%Z.
Proof.
  assert (Hf : @fits ex_W16 Z ex_D95) by (vm_compute; repeat split; try lia; repeat constructor; lia).
  split; [apply C80_reads_bin; [split; [lia|done]|exact ex_RZ_storable|exact Hf|by exists (str "m")|done]|].
  split; [vm_compute; repeat split; try lia; repeat constructor; lia|].
  split; [by vm_compute|]. split; [vm_compute; repeat split; intros; discriminate|].
  split; [vm_compute; repeat split; try lia; try done; repeat constructor; lia|].
  split; [split; [cbn; lia|split; [cbn; lia|right; split; cbn; lia]]|]. split; [vm_compute; lia|].
  split; [unfold distinct_coords; apply (bool_decide_unpack _); vm_compute; exact Logic.I|]. split; [done|exact exact_Z].
Qed.
(** what the program does with it, one iteration after the other: as it is written; with the vectors
    set to zero; and on a matrix with a repeated position whose blocks are all stored as dense *)
Definition ex_run95 (start : buf -> nat -> prog Z unit) (kd : kind) (kd2 : kind2) (B : coo Z) : outcome (Z * list Z * bool) :=
  '(r, h) ← run (@result_with Z _ ex_W16 ex_RZ 1 ex_scan (fun a b => negb (a =? b)%Z) (fun i => Z.of_nat i) 1 (fun _ _ => 1%N) 4
     (fun _ _ _ => kd) (fun _ _ _ => kd) (fun _ _ _ => true) (fun _ _ _ => false) (fun _ _ _ => kd2) true start [str "m.bin"] (ex_fs95 B)) ∅;
  Ok (r, bool_decide (h = ∅)).
Example C95_run :
  ex_run95 new_vector KCoo K2Coo ex_D95 = Undef Uninit /\
  ex_run95 vector_zero KCoo K2Coo ex_D95 = Ok ((0, [0; 0; 0; 0; 0; 0; 0])%Z, true) /\
  ex_run95 vector_zero KDense K2Dense ex_D = Ok ((0, [0; 0; 0; 0; -1; -1; -1])%Z, true).
Proof. vm_compute. done. Qed.
