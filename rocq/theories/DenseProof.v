(** DenseProof.v: proofs about the dense and compressed-row parts of Simple.v *)
From Verif Require Export SimpleProof.

Section proofs.
  Context {T : Type} `{Scalar T} `{Widths}.
  Implicit Types (E : list (elem T)) (b : buf).

  Lemma last_entry_snoc E e i j :
    last_entry (E ++ [e]) i j = if (row e =? i) && (col e =? j) then val e else last_entry E i j.
  Proof. unfold last_entry. by rewrite fold_left_app. Qed.
  Definition dense_list E (rows cols : nat) : list T :=
    (fun p => last_entry E (p / cols) (p mod cols)) <$> seq 0 (rows * cols).
  Lemma dense_list_nth E rows cols i j : i < rows -> j < cols ->
    nth (i * cols + j) (dense_list E rows cols) s0 = last_entry E i j.
  Proof.
    intros Hi Hj. apply nth_lookup_Some. unfold dense_list. rewrite fmap_seq_lookup by nia.
    rewrite Nat.add_comm, Nat.div_add, Nat.mod_add by lia. by rewrite Nat.div_small, Nat.mod_small.
  Qed.
  Lemma dense_fill_spec E rows cols : in_range rows cols E -> rows * cols < itW ->
    dense_fill E rows cols = Ok (Dense rows cols (full (dense_list E rows cols))).
  Proof.
    intros HE Hw. apply wp_eq. unfold dense_fill.
    assert (wmul rows cols = rows * cols) as -> by (by apply wrap_small).
    apply wp_bind. eapply wp_mono.
    { apply (wp_for_range (fun i v => v = full (dense_list (take i E) rows cols))); [lia| |].
      - unfold dense_list, new_arr0. apply list_eq. intros p. rewrite full_lookup.
        destruct (decide (p < rows * cols)).
        + rewrite fmap_seq_lookup, lookup_replicate_2 by done. done.
        + rewrite !lookup_ge_None_2; [done| |]; rewrite ?replicate_length, ?fmap_length, ?seq_length; lia.
      - intros i v Hi ->. destruct (lookup_lt_is_Some_2 E i) as [e He]; [lia|]. rewrite (lget_some _ _ _ He).
        cbn [mbind outcome_bind]. unfold in_range in HE. rewrite Forall_lookup in HE. destruct (HE _ _ He) as [Hr Hc].
        assert (Hp : row e * cols + col e < rows * cols) by nia.
        assert (wadd (wmul (row e) cols) (col e) = row e * cols + col e) as ->.
        { unfold wadd, wmul. rewrite (wrap_small (_ * cols)) by lia. apply wrap_small. lia. }
        rewrite aset_full by (unfold dense_list; rewrite fmap_length, seq_length; lia). cbn [wp]. f_equal.
        unfold dense_list. rewrite fmap_seq_insert by done. apply fmap_seq_ext. intros p Hp'.
        rewrite (take_S_r _ _ _ He), last_entry_snoc.
        pose proof (Nat.div_mod p cols ltac:(lia)) as Hdm. pose proof (Nat.mod_upper_bound p cols ltac:(lia)) as Hmb.
        destruct (Nat.eqb_spec p (row e * cols + col e)) as [->|Hne].
        + rewrite Nat.add_comm, Nat.div_add, Nat.mod_add by lia. rewrite Nat.div_small, Nat.mod_small by lia.
          by rewrite !Nat.eqb_refl.
        + destruct (Nat.eqb_spec (row e) (p / cols)) as [H1|H1], (Nat.eqb_spec (col e) (p mod cols)) as [H2|H2]; try done.
          exfalso. apply Hne. rewrite Hdm. rewrite <- H1, <- H2. lia. }
    intros v ->. rewrite firstn_all. done.
  Qed.
  Lemma Coo_to_Dense_spec E rows cols : in_range rows cols E -> 0 < cols -> rows * cols < itW ->
    Coo_to_Dense E rows cols = Ok (Dense rows cols (full (dense_list E rows cols))).
  Proof.
    intros HE Hc Hw. unfold Coo_to_Dense.
    assert (wmul rows cols = rows * cols) as -> by (by apply wrap_small).
    rewrite (proj2 (Nat.leb_le rows (rows * cols))) by nia. cbn [assert_ mbind outcome_bind]. by apply dense_fill_spec.
  Qed.
  Definition dense_row_acc E (cols : nat) (x : list T) (i : nat) (y : T) : T :=
    fold_left (fun acc j => sadd acc (smul (last_entry E i j) (at_ x j))) (seq 0 cols) y.
  Lemma dense_acc_list E rows cols x i y : i < rows ->
    dense_acc (dense_list E rows cols) cols x i y = dense_row_acc E cols x i y.
  Proof.
    intros Hi. unfold dense_acc, dense_row_acc.
    assert (Hgen : forall l, Forall (fun j => j < cols) l -> forall y,
      fold_left (fun acc j => sadd acc (smul (nth (i * cols + j) (dense_list E rows cols) s0) (at_ x j))) l y =
      fold_left (fun acc j => sadd acc (smul (last_entry E i j) (at_ x j))) l y).
    { induction 1 as [|j l Hj _ IH]; intros y'; [done|]. cbn [fold_left]. rewrite dense_list_nth by done. apply IH. }
    apply Hgen, Forall_seq. lia.
  Qed.
  Lemma performs_dense_spmv E rows cols x xo b o :
    rows * cols < itW -> xo + cols <= length x ->
    performs (dense_spmv (Dense rows cols (full (dense_list E rows cols))) x xo b o) b o rows (fun _ => False)
      (dense_row_acc E cols (drop xo x)).
  Proof.
    intros Hw Hx. unfold dense_spmv. cbn [d_val d_rows d_cols].
    eapply performs_ext; [|apply performs_spmv_dense; [|lia|done]].
    - intros k y Hk. by apply dense_acc_list.
    - unfold dense_list. by rewrite fmap_length, seq_length.
  Qed.
  Lemma performs_dense_spmv_serial E rows cols x xo b o (π : buf -> Prop) :
    rows * cols < itW -> xo + cols <= length x ->
    performs (dense_spmv_serial (Dense rows cols (full (dense_list E rows cols))) x xo b o) b o rows π
      (dense_row_acc E cols (drop xo x)).
  Proof.
    intros Hw Hx. unfold dense_spmv_serial. cbn [d_val d_rows d_cols].
    eapply performs_ext; [|apply performs_spmv_dense_serial; [|lia|done]].
    - intros k y Hk. by apply dense_acc_list.
    - unfold dense_list. by rewrite fmap_length, seq_length.
  Qed.
  (** with pairwise distinct coordinates the last element is the only one *)
  Lemma last_entry_none E i j : Forall (fun e => ~ (row e = i /\ col e = j)) E -> last_entry E i j = s0.
  Proof.
    intros HE. unfold last_entry. generalize (s0 (T := T)). induction HE as [|e E He _ IH]; intros z; [done|].
    cbn [fold_left]. destruct (Nat.eqb_spec (row e) i), (Nat.eqb_spec (col e) j); try apply IH. by destruct He.
  Qed.
  Lemma last_entry_entry E (one : T) i j : exact_arith T one -> distinct_coords E -> last_entry E i j = entry E i j.
  Proof.
    intros SR HE. unfold distinct_coords in HE. unfold entry.
    assert (Hnone : forall l : list (elem T), Forall (fun e => ~ (row e = i /\ col e = j)) l ->
               bfilter (fun e => (row e =? i) && (col e =? j)) l = []).
    { induction 1 as [|e l He _ IH]; [done|]. simpl.
      destruct (Nat.eqb_spec (row e) i), (Nat.eqb_spec (col e) j); try done. by destruct He. }
    assert (Hgen : forall z, fold_left (fun acc e => if (row e =? i) && (col e =? j) then val e else acc) E z =
       match bfilter (fun e => (row e =? i) && (col e =? j)) E with [] => z | _ => sum (val <$> bfilter (fun e => (row e =? i) && (col e =? j)) E) end).
    { induction E as [|e E IH]; intros z; [done|]. rewrite fmap_cons in HE. apply NoDup_cons in HE as [Hn HE].
      cbn [fold_left List.filter]. rewrite IH by done.
      destruct ((row e =? i) && (col e =? j)) eqn:Hm; [|done].
      apply andb_true_iff in Hm as [H1 H2]. apply Nat.eqb_eq in H1, H2.
      rewrite Hnone.
      - unfold sum. cbn. destruct SR. rewrite SRadd_comm. by rewrite SRadd_0_l.
      - apply Forall_forall. intros e' He' [H3 H4]. apply Hn. apply elem_of_list_fmap. exists e'. split; [congruence|done]. }
    unfold last_entry. rewrite Hgen. destruct (bfilter _ E) as [|e' l']; [done|done].
  Qed.
  Lemma dense_row_acc_exact E cols x i y (one : T) : exact_arith T one -> distinct_coords E ->
    dense_row_acc E cols x i y = sadd y (dot E cols x i).
  Proof.
    intros SR HE. unfold dense_row_acc, dot.
    assert (Hgen : forall l y, fold_left (fun acc j => sadd acc (smul (last_entry E i j) (at_ x j))) l y =
              sadd y (sum ((fun j => smul (entry E i j) (at_ x j)) <$> l))).
    { induction l as [|j l IH]; intros y'; cbn [fold_left].
      - unfold sum. cbn. destruct SR. rewrite SRadd_comm. by rewrite SRadd_0_l.
      - rewrite IH. rewrite (last_entry_entry E one) by done. unfold sum. cbn. destruct SR. by rewrite SRadd_assoc. }
    apply Hgen.
  Qed.

  (** ** compressed rows: every construction reads an uninitialised row pointer *)
  Lemma incr_uninit n k : k < n -> incr (new_arr n) k = Undef Uninit.
  Proof. intros Hk. unfold incr, aget, new_arr. rewrite lookup_replicate_2 by done. done. Qed.
  Lemma Coo_to_CrCsr_rows_undef E num : num + 1 < itW -> exists u, Coo_to_CrCsr_rows E num = Undef u.
  Proof.
    intros Hw. unfold Coo_to_CrCsr_rows, Coo_to_CrCsr_from. rewrite sort_triplets_spec. cbn [mbind outcome_bind].
    pose proof (isort_length compare_row E) as Hlen. destruct (isort compare_row E) as [|e0 L] eqn:HL.
    { exists OutOfBounds. done. }
    rewrite (lget_some (e0 :: L) 0 e0) by done. cbn [mbind outcome_bind].
    destruct (decide (num = 0)) as [->|Hnum]; [exists OutOfBounds; done|].
    rewrite aset_ok by (unfold new_arr; rewrite replicate_length; lia). cbn [mbind outcome_bind].
    exists Uninit.
    rewrite for_range_step by (rewrite <- Hlen; simpl; lia).
    rewrite (lget_some (e0 :: L) 0 e0) by done. cbn [mbind outcome_bind].
    rewrite <- Hlen. cbn [length].
    rewrite (aset_ok (new_arr (S (length L))) 0 (col e0)) by (unfold new_arr; rewrite replicate_length; lia). cbn [mbind outcome_bind].
    rewrite (aset_ok (new_arr (S (length L))) 0 (val e0)) by (unfold new_arr; rewrite replicate_length; lia). cbn [mbind outcome_bind].
    assert (Hg : aget (<[0 := Some (row e0)]> (new_arr num)) 0 = Ok (row e0)).
    { unfold aget. rewrite list_lookup_insert; [done|]. unfold new_arr. rewrite replicate_length. lia. }
    rewrite Hg.
    cbn [mbind outcome_bind]. rewrite Nat.eqb_refl. cbn [negb mbind outcome_bind].
    rewrite incr_uninit; [done|]. unfold wadd. rewrite !wrap_small by lia. lia.
  Qed.
  Lemma runs_pos (K : list nat) : K <> [] -> 1 <= runs K.
  Proof. induction K as [|a K IH]; [done|]. intros _. destruct K; simpl in *; [lia|]. specialize (IH ltac:(done)). lia. Qed.
  Lemma Coo_to_CrCsr_undef E : length E + 1 < itW -> exists u, Coo_to_CrCsr E = Undef u.
  Proof.
    intros Hw. unfold Coo_to_CrCsr. destruct (decide (E = [])) as [->|Hne].
    - exists OutOfBounds. done.
    - rewrite count_nnz_rows_runs by (done || lia). cbn [mbind outcome_bind]. apply Coo_to_CrCsr_rows_undef.
      pose proof (runs_le (row <$> E)) as Hr. rewrite fmap_length in Hr. lia.
  Qed.
End proofs.
