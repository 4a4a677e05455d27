(** Cgbr2Proof.v: the block factories, and the two constructors (Cgbr.v) *)
From Verif Require Export CgbrProof.
From Coq Require Import ZifyNat ZifyBool.

(** the part of a matrix inside block (br, bc), in block coordinates *)
Definition submatrix {T} (roff : list nat) (br : nat) (coff : list nat) (bc : nat) (E : list (elem T)) : list (elem T) :=
  (fun e => Elem (row e - nth br roff 0) (col e - nth bc coff 0) (val e) 0) <$>
    bfilter (fun e => (nth br roff 0 <=? row e) && (row e <? nth (S br) roff 0) &&
                      (nth bc coff 0 <=? col e) && (col e <? nth (S bc) coff 0)) E.
Definition block_rows (roff : list nat) (br : nat) : nat := nth (S br) roff 0 - nth br roff 0.

Section perm.
  Context {T : Type}.
  Implicit Types E L : list (elem T).
  Lemma same_elements_distinct L L' : same_elements L L' -> distinct_coords L -> distinct_coords L'.
  Proof.
    unfold same_elements, distinct_coords. intros Hs Hd.
    assert (Hf : forall l : list (elem T), (fun e => (row e, col e)) <$> l = (fun c : nat * nat * T => c.1) <$> (coords <$> l)).
    { intros l. rewrite <- list_fmap_compose. by apply list_fmap_ext. }
    rewrite Hf in *. by rewrite <- Hs.
  Qed.
  Lemma at_block_submatrix roff nbr rows coff nbc cols E id :
    blocking roff nbr rows -> blocking coff nbc cols -> in_range rows cols E -> id / nbc < nbr -> id mod nbc < nbc ->
    same_elements (local roff nbr coff nbc E id) (submatrix roff (id / nbc) coff (id mod nbc) E).
  Proof.
    intros Hr Hc HE H1 H2. unfold same_elements, local.
    assert (Hp : blocks_at roff nbr coff nbc E id ≡ₚ bfilter (has blk id) (with_ids roff nbr coff nbc E)).
    { unfold blocks_at, group. apply bfilter_perm, bsorted_perm. }
    assert (Hloc : coords <$> (BlocksProof.loc roff coff nbc <$> blocks_at roff nbr coff nbc E id) =
                   (fun e => (row e - nth (id / nbc) roff 0, col e - nth (id mod nbc) coff 0, val e)) <$> blocks_at roff nbr coff nbc E id).
    { rewrite <- list_fmap_compose. apply Forall_fmap_ext_1. apply Forall_forall. intros e He. apply blocks_at_elem in He as [_ <-].
      unfold coords, BlocksProof.loc, ro, co. done. }
    rewrite Hloc, Hp. clear Hp Hloc. apply reflexive_eq. unfold submatrix, with_ids. rewrite <- list_fmap_compose.
    induction E as [|e l IH]; [done|]. inversion_clear HE as [|? ? [He1 He2] HE']. rewrite fmap_cons. cbn [List.filter].
    assert (Hiff : has blk id (set_blk (block_id roff nbr coff nbc e) e) =
      (nth (id / nbc) roff 0 <=? row e) && (row e <? nth (S (id / nbc)) roff 0) && (nth (id mod nbc) coff 0 <=? col e) && (col e <? nth (S (id mod nbc)) coff 0)).
    { unfold has. cbn [blk set_blk].
      destruct (block_of_spec _ _ _ _ Hr He1) as [B1 [B2 B3]]. destruct (block_of_spec _ _ _ _ Hc He2) as [C1 [C2 C3]].
      destruct (block_id_div roff nbr coff nbc cols e Hc He2) as [D1 D2].
      apply eq_bool_prop_intro. rewrite !andb_True, !Is_true_true, Nat.eqb_eq, !Nat.leb_le, !Nat.ltb_lt. split.
      - intros <-. rewrite D1, D2. lia.
      - intros [[[A1 A2] A3] A4]. pose proof (block_of_unique roff nbr rows (row e) (id / nbc) Hr ltac:(lia) ltac:(split; lia)) as U1.
        pose proof (block_of_unique coff nbc cols (col e) (id mod nbc) Hc ltac:(lia) ltac:(split; lia)) as U2.
        unfold block_id. rewrite U1, U2. pose proof (Nat.div_mod id nbc ltac:(lia)). lia. }
    rewrite Hiff. specialize (IH HE').
    destruct ((nth (id / nbc) roff 0 <=? row e) && (row e <? nth (S (id / nbc)) roff 0) && (nth (id mod nbc) coff 0 <=? col e) && (col e <? nth (S (id mod nbc)) coff 0)); [|done].
    rewrite !fmap_cons. cbn. f_equal. exact IH.
  Qed.
End perm.

(** ** the factories *)
Section factories.
  Context {T : Type} `{Scalar T} `{Widths}.
  Implicit Types (E L : list (elem T)) (x y : list T).

  (** what block M, made from elements left as L, adds to row r; dense blocks keep the last
      of several elements with the same coordinates *)
  Definition mblock_value (M : mblock T) L (cols : nat) x (r : nat) (y : T) : T :=
    match M with MDense _ => dense_row_acc L cols x r y | _ => row_acc L x r y end.
  (** the load of a block for the partitioner: cells of a dense block, elements of others *)
  Definition mblock_load (M : mblock T) (n rs cs : nat) : nat := match M with MDense _ => rs * cs | _ => n end.
  (** a factory does its job on a block *)
  Record makes (make : factory (T := T)) (tag : mblock T -> nat) L (rs cs : nat) (B : gblock T) (ty : nat) L' : Prop := {
    mk_ok : make L rs cs = Ok (B, ty, L');
    mk_same : L' ≡ₚ L;
    mk_type : ty = tag (gb_mat B) /\ ty < MATRIX_TYPE_NUM;
    mk_nnz : gb_nnz B = length L;
    mk_nz : mblock_nonzeros (gb_mat B) = Ok (mblock_load (gb_mat B) (length L) rs cs);
    mk_spmv : forall x xo b o, xo + cs <= length x ->
      performs (mblock_spmv (gb_mat B) x xo b o) b o rs (fun _ => False) (mblock_value (gb_mat B) L' cs (drop xo x));
    mk_spmv_serial : forall x xo b o, xo + cs <= length x ->
      performs (mblock_spmv_serial (gb_mat B) x xo b o) b o rs (fun _ => False) (mblock_value (gb_mat B) L' cs (drop xo x)) }.

  (** the type codes of the blocks (include/typedefs.h:33-41), in numbers so that the statements do
      not depend on the model's own constants *)
  Definition tag1 (M : mblock T) : nat := match M with MCoo _ => 0 | MCsr _ => 1 | MCsrPar _ => 1 | MDense _ => 2 end.
  Definition tag2 (M : mblock T) : nat := match M with MCoo _ => 0 | MCsr _ => 1 | MCsrPar _ => 4 | MDense _ => 2 end.

  Section block.
    Context L (rs cs : nat).
    Context (HL : in_range rs cs L) (Hs : ksorted row L) (Hrs : rs <= sitW) (Hcs : cs <= sitW).
    Context (Hrs2 : rs + 1 < itW) (Hn : length L < itW).
    Lemma short_row_col L' : L' ≡ₚ L -> Forall (fun e => swrap (row e) = row e /\ swrap (col e) = col e) L' /\ in_range rs cs L'.
    Proof using HL Hrs Hcs.
      clear Hs Hrs2 Hn.
      intros Hp. split; [|unfold in_range; by rewrite Hp]. rewrite Hp. eapply Forall_impl; [exact HL|]. cbv beta. intros e [H1 H2].
      rewrite !swrap_small by lia. done.
    Qed.
    Lemma coo_block_performs L' x xo b o : L' ≡ₚ L -> xo + cs <= length x ->
      performs (coo1_spmv (Coo1 (length L') (full ((fun e => swrap (row e)) <$> L')) (full ((fun e => swrap (col e)) <$> L')) (full (val <$> L'))) x xo b o)
        b o rs (fun _ => False) (row_acc L' (drop xo x)).
    Proof using HL Hrs Hcs.
      clear Hs Hrs2 Hn.
      intros Hp Hx. destruct (short_row_col L' Hp). by eapply (performs_coo1_spmv swrap L' rs cs).
    Qed.
    Lemma csr_block_spec : Coo_to_BlockCsr L rs cs =
      Ok (Csr rs cs (full (ptrs (row <$> L) rs)) (full ((fun e => swrap (col e)) <$> L)) (full (val <$> L))).
    Proof using HL Hrs2 Hn.
      clear Hs Hrs Hcs.
      unfold Coo_to_BlockCsr. apply csr_build_spec; [|done|done]. eapply Forall_impl; [exact HL|]. cbn. tauto.
    Qed.
    Lemma csr_block_rep : csr_rep (full (ptrs (row <$> L) rs)) 0 (full ((fun e => swrap (col e)) <$> L)) (full (val <$> L)) 0 rs (fun i => bfilter (in_row i) L).
    Proof using HL Hs Hrs Hcs.
      clear Hrs2 Hn.
      apply csr_build_rep; [done|]. destruct (short_row_col L) as [Hf _]; [done|]. eapply Forall_impl; [exact Hf|]. cbn. tauto.
    Qed.
    Lemma rows_cols i : Forall (fun e => col e < cs) (bfilter (in_row i) L).
    Proof using HL.
      clear Hs Hrs Hcs Hrs2 Hn.
      apply Forall_forall. intros e [He _]%elem_of_bfilter. unfold in_range in HL. rewrite Forall_forall in HL. by apply HL.
    Qed.
    Lemma csr_block_performs x xo b o : xo + cs <= length x ->
      performs (spmv_csr (full (ptrs (row <$> L) rs)) 0 (full ((fun e => swrap (col e)) <$> L)) (full (val <$> L)) 0 rs x xo b o)
        b o rs (fun _ => False) (row_acc L (drop xo x)).
    Proof using HL Hs Hrs Hcs.
      clear Hrs2 Hn.
      intros Hx. eapply performs_ext; [|eapply (performs_spmv_csr _ 0 _ _ _ _ (fun i => bfilter (in_row i) L) cs)].
      - done.
      - apply csr_block_rep.
      - intros i _. apply rows_cols.
      - done.
    Qed.
    Lemma csr_block_serial_performs x xo b o : xo + cs <= length x ->
      performs (spmv_csr_serial (full (ptrs (row <$> L) rs)) 0 (full ((fun e => swrap (col e)) <$> L)) (full (val <$> L)) 0 rs x xo b o)
        b o rs (fun _ => False) (row_acc L (drop xo x)).
    Proof using HL Hs Hrs Hcs.
      clear Hrs2 Hn.
      intros Hx. eapply performs_ext; [|eapply (performs_spmv_csr_serial _ 0 _ _ _ _ (fun i => bfilter (in_row i) L) cs)].
      - done.
      - apply csr_block_rep.
      - intros i _. apply rows_cols.
      - done.
      - intros _. eexists. apply ptrs_get. lia.
    Qed.
    Lemma csr_block_nonzeros : csr_nonzeros (Csr rs cs (full (ptrs (row <$> L) rs)) (full ((fun e => swrap (col e)) <$> L)) (full (val <$> L))) = Ok (length L).
    Proof using HL.
      clear Hs Hrs Hcs Hrs2 Hn.
      unfold csr_nonzeros. cbn [csr_ptr csr_rows]. rewrite ptrs_get by done. f_equal. rewrite cntlt_all; [by rewrite fmap_length|].
      apply Forall_fmap. eapply Forall_impl; [exact HL|]. cbn. tauto.
    Qed.

    Lemma make_block_makes choose : 0 < cs -> itW <= sitW \/ (sitW < itW /\ (N.of_nat sitW < 2147483648)%N) ->
      (choose rs cs (length L) = KDense -> rs * cs < itW) ->
      exists B ty L', makes (make_block choose) tag1 L rs cs B ty L' /\ (choose rs cs (length L) <> KDense -> match gb_mat B with MDense _ => False | _ => True end).
    Proof.
      intros Hcs0 Hsw Hd. unfold make_block. destruct (choose rs cs (length L)) eqn:Hk.
      - assert (Hok := Coo_to_BlockCoo_ok L Hsw). destruct (decide (Forall (fun e => row e < sitW /\ col e < sitW) L)) as [Hf0|Hbad].
        + specialize (Hok Hf0). cbv zeta in Hok. set (L' := isort compare_morton L) in *. assert (Hp : L' ≡ₚ L) by apply isort_perm.
          assert (Hrw : Coo1 (length L') (full (row <$> L')) (full (col <$> L')) (full (val <$> L')) =
                        Coo1 (length L') (full ((fun e => swrap (row e)) <$> L')) (full ((fun e => swrap (col e)) <$> L')) (full (val <$> L'))).
          { destruct (short_row_col L' Hp) as [Hf _]. f_equal; f_equal; symmetry; apply Forall_fmap_ext_1; (eapply Forall_impl; [exact Hf|]); cbn; tauto. }
          rewrite Hrw in Hok. eexists _, _, _. split; [split|].
          * cbv beta. rewrite Hk, Hok. reflexivity.
          * done.
          * split; [done|]. unfold BLOCK_COO, MATRIX_TYPE_NUM. lia.
          * done.
          * cbn. by rewrite Hp.
          * intros x xo b o Hx. by apply coo_block_performs.
          * intros x xo b o Hx. by apply coo_block_performs.
          * done.
        + exfalso. apply Hbad. eapply Forall_impl; [exact HL|]. cbn. lia.
      - eexists _, _, _. split; [split|].
        + cbv beta. rewrite Hk, csr_block_spec. reflexivity.
        + done.
        + split; [done|]. unfold BLOCK_CSR, MATRIX_TYPE_NUM. lia.
        + done.
        + apply csr_block_nonzeros.
        + intros x xo b o Hx. by apply csr_block_performs.
        + intros x xo b o Hx. by apply csr_block_serial_performs.
        + done.
      - specialize (Hd eq_refl). eexists _, _, _. split; [split|].
        + cbv beta. rewrite Hk, Coo_to_Dense_spec by done. reflexivity.
        + done.
        + split; [done|]. unfold BLOCK_DENSE, MATRIX_TYPE_NUM. lia.
        + done.
        + cbn. unfold wmul. by rewrite wrap_small.
        + intros x xo b o Hx. by apply performs_dense_spmv.
        + intros x xo b o Hx. by apply performs_dense_spmv_serial.
        + done.
    Qed.
    Lemma make_block2_makes choose :
      (choose L rs cs = K2Dense -> rs * cs < itW) ->
      exists B ty L', makes (make_block2 choose) tag2 L rs cs B ty L' /\ (choose L rs cs <> K2Dense -> match gb_mat B with MDense _ => False | _ => True end).
    Proof.
      intros Hd. unfold make_block2. destruct (choose L rs cs) eqn:Hk.
      - set (L' := isort compare_morton L). assert (Hp : L' ≡ₚ L) by apply isort_perm.
        eexists _, _, _. split; [split|].
        + cbv beta. rewrite Hk. unfold new_Coo. rewrite sort_triplets_morton_spec. cbn [mbind outcome_bind]. rewrite copy_points_spec. reflexivity.
        + done.
        + split; [done|]. unfold BLOCK_COO, MATRIX_TYPE_NUM. lia.
        + done.
        + cbn. by rewrite isort_length.
        + intros x xo b o Hx. by apply coo_block_performs.
        + intros x xo b o Hx. by apply coo_block_performs.
        + done.
      - eexists _, _, _. split; [split|].
        + cbv beta. rewrite Hk, csr_block_spec. reflexivity.
        + done.
        + split; [done|]. unfold BLOCK_CSR, MATRIX_TYPE_NUM. lia.
        + done.
        + apply csr_block_nonzeros.
        + intros x xo b o Hx. by apply csr_block_serial_performs.
        + intros x xo b o Hx. by apply csr_block_serial_performs.
        + done.
      - eexists _, _, _. split; [split|].
        + cbv beta. rewrite Hk, csr_block_spec. reflexivity.
        + done.
        + split; [done|]. unfold BLOCK_CSR_PAR, MATRIX_TYPE_NUM. lia.
        + done.
        + apply csr_block_nonzeros.
        + intros x xo b o Hx. by apply csr_block_performs.
        + intros x xo b o Hx. by apply csr_block_serial_performs.
        + done.
      - specialize (Hd eq_refl). eexists _, _, _. split; [split|].
        + cbv beta. rewrite Hk, dense_fill_spec by done. reflexivity.
        + done.
        + split; [done|]. unfold BLOCK_DENSE, MATRIX_TYPE_NUM. lia.
        + done.
        + cbn. unfold wmul. by rewrite wrap_small.
        + intros x xo b o Hx. by apply performs_dense_spmv.
        + intros x xo b o Hx. by apply performs_dense_spmv_serial.
        + done.
    Qed.
    (** with exact arithmetic the value is the sum *)
    Lemma mblock_value_exact M L' x r (y one : T) : exact_arith T one -> L' ≡ₚ L ->
      (match M with MDense _ => distinct_coords L | _ => True end) -> mblock_value M L' cs x r y = row_acc L x r y.
    Proof using HL.
      clear Hs Hrs Hcs Hrs2 Hn.
      intros SR Hp Hd. unfold mblock_value. destruct M; try (by apply (row_acc_perm one SR)).
      rewrite (dense_row_acc_exact L' cs x r y one SR).
      - rewrite <- (row_acc_perm one SR L' L x r y Hp). symmetry. eapply (row_acc_dot one SR rs). unfold in_range. by rewrite Hp.
      - unfold distinct_coords in *. by rewrite Hp.
    Qed.
  End block.
End factories.
