(** DupProof.v: what a Cgbr or Cgbr2 matrix computes when dense blocks hold several elements at
    one position: the product with the matrix left after keeping one of them. *)
From Verif Require Export Cgbr3Proof.
From Coq Require Import ZifyNat ZifyBool.

Section keep.
  Context {T : Type}.
  Implicit Types (E L : list (elem T)).
  Definition same_pos (e e' : elem T) : bool := (row e =? row e') && (col e =? col e').
  (** the last element of every position *)
  Fixpoint keep_last L : list (elem T) :=
    match L with
    | [] => []
    | e :: L' => if existsb (same_pos e) L' then keep_last L' else e :: keep_last L'
    end.
  Lemma keep_last_sublist L : keep_last L `sublist_of` L.
  Proof. induction L as [|e L IH]; [done|]. cbn [keep_last]. destruct (existsb _ _); [by apply sublist_cons|by apply sublist_skip]. Qed.
  Lemma keep_last_covers L e : e ∈ L -> exists e', e' ∈ keep_last L /\ row e' = row e /\ col e' = col e.
  Proof.
    revert e. induction L as [|a L IH]; intros e; [by intros ?%elem_of_nil|]. intros He. cbn [keep_last]. destruct (existsb (same_pos a) L) eqn:Hx.
    - apply elem_of_cons in He as [->|He]; [|by apply IH]. apply existsb_exists in Hx as (e' & Hin & Hs). apply elem_of_list_In in Hin.
      unfold same_pos in Hs. apply andb_true_iff in Hs as [H1%Nat.eqb_eq H2%Nat.eqb_eq]. rewrite H1, H2. by apply IH.
    - apply elem_of_cons in He as [->|He]; [exists a; split; [left|done]|]. destruct (IH e He) as (e' & He' & Hp). exists e'. split; [by right|done].
  Qed.
  Lemma keep_last_distinct L : distinct_coords (keep_last L).
  Proof.
    unfold distinct_coords. induction L as [|a L IH]; [constructor|]. cbn [keep_last]. destruct (existsb (same_pos a) L) eqn:Hx; [done|].
    rewrite fmap_cons. constructor; [|done]. intros (e & Heq & He)%elem_of_list_fmap. injection Heq as H1 H2.
    pose proof (elem_of_submseteq _ _ _ He (sublist_submseteq _ _ (keep_last_sublist L))) as He2. clear He. rename He2 into He. enough (existsb (same_pos a) L = true) by congruence.
    apply existsb_exists. exists e. split; [by apply elem_of_list_In|]. unfold same_pos. by rewrite H1, H2, !Nat.eqb_refl.
  Qed.
  Context `{Scalar T}.
  Lemma last_entry_keep L i j : last_entry L i j = last_entry (keep_last L) i j.
  Proof.
    unfold last_entry. generalize (s0 (T := T)). induction L as [|a L IH]; intros z; [done|]. cbn [keep_last]. destruct (existsb (same_pos a) L) eqn:Hx.
    - rewrite <- IH. cbn [fold_left]. destruct ((row a =? i) && (col a =? j)) eqn:Ha; [|done].
      apply andb_true_iff in Ha as [H1%Nat.eqb_eq H2%Nat.eqb_eq]. clear IH. revert z. generalize (val a). intros v z.
      apply existsb_exists in Hx as (e & Hin & Hs). unfold same_pos in Hs. apply andb_true_iff in Hs as [H3%Nat.eqb_eq H4%Nat.eqb_eq].
      revert v z. induction L as [|c L IHL]; intros v z; [done|]. cbn [fold_left]. destruct Hin as [->|Hin].
      + by rewrite <- H3, <- H4, H1, H2, !Nat.eqb_refl.
      + by apply IHL.
    - cbn [fold_left]. by destruct (_ && _).
  Qed.
  Lemma dense_row_acc_keep L cols x i y : dense_row_acc L cols x i y = dense_row_acc (keep_last L) cols x i y.
  Proof.
    unfold dense_row_acc. generalize (seq 0 cols). intros l. revert y. induction l as [|j l IH]; intros y; [done|]. cbn [fold_left]. by rewrite <- last_entry_keep.
  Qed.
End keep.

Lemma block_ids (nbr nbc br bc : nat) : br < nbr -> bc < nbc -> (br * nbc + bc) / nbc = br /\ (br * nbc + bc) mod nbc = bc.
Proof.
  intros Hbr Hbc. split; [rewrite Nat.div_add_l, Nat.div_small by lia; lia|]. rewrite Nat.add_comm, Nat.mod_add, Nat.mod_small by lia. done.
Qed.

Section dups.
  Context {T : Type} `{Scalar T} `{Widths}.
  Context (roff : list nat) (nbr rows : nat) (coff : list nat) (nbc cols : nat) (E : list (elem T)).
  Context (Hr : blocking roff nbr rows) (Hc : blocking coff nbc cols) (HE : in_range rows cols E).
  Context (make : factory (T := T)) (tag : mblock T -> nat) (dense : nat -> Prop).
  Notation I := (bids roff nbr coff nbc E).
  Notation local := (local roff nbr coff nbc E).
  Notation at_block := (blocks_at roff nbr coff nbc E).
  Notation made_block := (made_block roff nbr coff nbc E make).
  Notation made_left := (made_left roff nbr coff nbc E make).
  Notation brs := (brs roff nbr coff nbc E).
  Context (Hmk : forall id, id ∈ I -> exists B ty L, makes make tag (local id) (rsz roff nbc id) (csz coff nbc id) B ty L /\ (~ dense id -> ~ is_dense (gb_mat B))).
  Context (one : T) (SR : exact_arith T one).
  Definition global (id : nat) (e : elem T) : elem T := Elem (ro roff nbc id + row e) (co coff nbc id + col e) (val e) id.
  (** the elements of a block that count *)
  Definition kept (id : nat) : list (elem T) :=
    match gb_mat (made_block id) with MDense _ => global id <$> keep_last (made_left id) | _ => at_block id end.
  Definition thinned : list (elem T) := mjoin (kept <$> I).

  Lemma left_same id : id ∈ I -> made_left id ≡ₚ local id.
  Proof. intros Hid. apply (mk_same _ _ _ _ _ _ _ _ (proj1 (made_makes roff nbr coff nbc E make tag dense Hmk id Hid))). Qed.
  Lemma global_left_coords id : id ∈ I -> coords <$> (global id <$> made_left id) ≡ₚ coords <$> at_block id.
  Proof.
    intros Hid. rewrite (left_same id Hid). apply reflexive_eq. unfold CgbrProof.local. rewrite <- !list_fmap_compose. apply list_fmap_ext.
    intros k e He. apply elem_of_list_lookup_2, blocks_at_elem in He as [He Hb]. pose proof (loc_inside _ _ _ _ _ _ _ Hr Hc HE e He) as Hin. rewrite Hb in Hin.
    unfold compose, coords, global, BlocksProof.loc. cbn [row col val]. rewrite Hb. f_equal. f_equal; lia.
  Qed.
  Lemma kept_sub id : id ∈ I -> coords <$> kept id ⊆+ coords <$> at_block id.
  Proof.
    intros Hid. unfold kept. destruct (gb_mat (made_block id)); try done.
    rewrite <- (global_left_coords id Hid). apply fmap_submseteq, fmap_submseteq, sublist_submseteq, keep_last_sublist.
  Qed.
  Lemma thinned_sub : coords <$> thinned ⊆+ coords <$> E.
  Proof.
    rewrite <- (bsorted_coords roff nbr coff nbc E), <- (all_blocks roff nbr coff nbc E). unfold thinned.
    assert (Hgen : forall K, (forall id, id ∈ K -> id ∈ I) -> coords <$> mjoin (kept <$> K) ⊆+ coords <$> mjoin (at_block <$> K)).
    { induction K as [|id K IH]; intros HK; [done|]. change (mjoin (kept <$> id :: K)) with (kept id ++ mjoin (kept <$> K)).
      change (mjoin (at_block <$> id :: K)) with (at_block id ++ mjoin (at_block <$> K)). rewrite !fmap_app. apply submseteq_app.
      - apply kept_sub, HK. left.
      - apply IH. intros id' Hid'. apply HK. by right. }
    by apply Hgen.
  Qed.
  Lemma thinned_range : in_range rows cols thinned.
  Proof.
    unfold in_range. apply Forall_forall. intros e He. assert (Hin : coords e ∈ coords <$> E).
    { eapply elem_of_submseteq; [|exact thinned_sub]. by apply elem_of_list_fmap_1. }
    apply elem_of_list_fmap in Hin as (e' & Heq & He'). injection Heq as H1 H2 H3. rewrite H1, H2. unfold in_range in HE. rewrite Forall_forall in HE. by apply HE.
  Qed.
  Lemma kept_block id e : id ∈ I -> e ∈ kept id -> exists e', e' ∈ at_block id /\ coords e' = coords e.
  Proof.
    intros Hid He. assert (Hin : coords e ∈ coords <$> at_block id).
    { eapply elem_of_submseteq; [|by apply kept_sub]. by apply elem_of_list_fmap_1. }
    apply elem_of_list_fmap in Hin as (e' & Heq & He'). by exists e'.
  Qed.
  Lemma kept_inside id e : id ∈ I -> e ∈ kept id ->
    nth (id / nbc) roff 0 <= row e < nth (S (id / nbc)) roff 0 /\ nth (id mod nbc) coff 0 <= col e < nth (S (id mod nbc)) coff 0.
  Proof.
    intros Hid He. destruct (kept_block id e Hid He) as (e' & He' & Heq). injection Heq as H1 H2 _. apply blocks_at_elem in He' as [He' Hb].
    pose proof (loc_inside _ _ _ _ _ _ _ Hr Hc HE e' He') as [G1 G2]. rewrite Hb in G1, G2. unfold ro, rsz, co, csz in *. lia.
  Qed.
  Lemma kept_covers id e : id ∈ I -> e ∈ at_block id -> exists e', e' ∈ kept id /\ row e' = row e /\ col e' = col e.
  Proof.
    intros Hid He. unfold kept. destruct (gb_mat (made_block id)); try (by exists e).
    assert (Hin : coords e ∈ coords <$> (global id <$> made_left id)) by (rewrite (global_left_coords id Hid); by apply elem_of_list_fmap_1).
    apply elem_of_list_fmap in Hin as (e1 & Heq & He1). apply elem_of_list_fmap in He1 as (e2 & -> & He2). injection Heq as H1 H2 H3.
    destruct (keep_last_covers _ e2 He2) as (e3 & He3 & P1 & P2). exists (global id e3). split; [by apply elem_of_list_fmap_1|].
    unfold global in *. cbn [row col] in *. lia.
  Qed.
  Lemma thinned_covers e : e ∈ E -> exists e', e' ∈ thinned /\ row e' = row e /\ col e' = col e.
  Proof.
    intros He. assert (Hin : coords e ∈ coords <$> bsorted roff nbr coff nbc E) by (rewrite bsorted_coords; by apply elem_of_list_fmap_1).
    apply elem_of_list_fmap in Hin as (e1 & Heq & He1). injection Heq as H1 H2 _.
    pose proof (blk_in_bids roff nbr coff nbc E e1 He1) as Hid.
    destruct (kept_covers (blk e1) e1 Hid) as (e' & He' & P1 & P2).
    { unfold blocks_at, group. apply elem_of_list_In, filter_In. split; [by apply elem_of_list_In|]. unfold has. apply Nat.eqb_refl. }
    exists e'. split; [|lia]. unfold thinned. apply elem_of_list_join. exists (kept (blk e1)). split; [done|]. by apply elem_of_list_fmap_1.
  Qed.

  (** the blocks of the thinned matrix *)
  Lemma submatrix_app br bc (L1 L2 : list (elem T)) : submatrix roff br coff bc (L1 ++ L2) = submatrix roff br coff bc L1 ++ submatrix roff br coff bc L2.
  Proof. unfold submatrix. by rewrite bfilter_app, fmap_app. Qed.
  Lemma submatrix_kept_other br bc id : br < nbr -> bc < nbc -> id ∈ I -> id <> br * nbc + bc -> submatrix roff br coff bc (kept id) = [].
  Proof.
    intros Hbr Hbc Hid Hne. unfold submatrix. rewrite filter_none; [done|]. apply Forall_forall. intros e He.
    destruct (kept_inside id e Hid He) as [G1 G2]. destruct (bids_range _ _ _ _ _ _ _ Hr Hc HE id Hid) as (_ & D1 & D2 & D3).
    destruct ((nth br roff 0 <=? row e) && (row e <? nth (S br) roff 0) && (nth bc coff 0 <=? col e) && (col e <? nth (S bc) coff 0)) eqn:Hx; [|done].
    exfalso. apply Hne. rewrite !andb_true_iff, !Nat.leb_le, !Nat.ltb_lt in Hx. destruct Hx as (((X1 & X2) & X3) & X4).
    assert (Q1 : block_of roff nbr (row e) = br) by (apply (block_of_unique _ _ _ _ _ Hr Hbr); unfold in_block; lia).
    assert (Q2 : block_of roff nbr (row e) = id / nbc) by (apply (block_of_unique _ _ _ _ _ Hr D1); unfold in_block; lia).
    assert (Q3 : block_of coff nbc (col e) = bc) by (apply (block_of_unique _ _ _ _ _ Hc Hbc); unfold in_block; lia).
    assert (Q4 : block_of coff nbc (col e) = id mod nbc) by (apply (block_of_unique _ _ _ _ _ Hc D2); unfold in_block; lia).
    rewrite (Nat.div_mod id nbc) by lia. rewrite <- Q2, <- Q4, Q1, Q3. lia.
  Qed.
  Lemma submatrix_kept_own br bc : br < nbr -> bc < nbc -> br * nbc + bc ∈ I ->
    submatrix roff br coff bc (kept (br * nbc + bc)) =
      (fun e => Elem (row e - nth br roff 0) (col e - nth bc coff 0) (val e) 0) <$> kept (br * nbc + bc).
  Proof.
    intros Hbr Hbc Hid. unfold submatrix. f_equal.
    assert (Hall : Forall (fun e => (nth br roff 0 <=? row e) && (row e <? nth (S br) roff 0) && (nth bc coff 0 <=? col e) && (col e <? nth (S bc) coff 0) = true) (kept (br * nbc + bc))).
    { apply Forall_forall. intros e He. destruct (kept_inside _ e Hid He) as [G1 G2].
      rewrite Nat.div_add_l, Nat.div_small, Nat.add_0_r in G1 by lia. rewrite (Nat.add_comm (br * nbc)), Nat.mod_add, Nat.mod_small in G2 by lia.
      rewrite !andb_true_iff, !Nat.leb_le, !Nat.ltb_lt. lia. }
    revert Hall. generalize (kept (br * nbc + bc)). intros L Hall. induction Hall as [|e L He HL IH]; [done|]. cbn [List.filter]. rewrite He. by rewrite IH.
  Qed.
  Lemma submatrix_thinned br bc : br < nbr -> bc < nbc ->
    submatrix roff br coff bc thinned = if decide (br * nbc + bc ∈ I) then submatrix roff br coff bc (kept (br * nbc + bc)) else [].
  Proof.
    intros Hbr Hbc. unfold thinned.
    assert (Hgen : forall K, NoDup K -> (forall id, id ∈ K -> id ∈ I) ->
      submatrix roff br coff bc (mjoin (kept <$> K)) = if decide (br * nbc + bc ∈ K) then submatrix roff br coff bc (kept (br * nbc + bc)) else []).
    { induction K as [|id K IH]; intros Hnd HK; [done|]. apply NoDup_cons in Hnd as [Hn Hnd].
      change (mjoin (kept <$> id :: K)) with (kept id ++ mjoin (kept <$> K)). rewrite submatrix_app, IH by (try done; intros id' Hid'; apply HK; by right).
      destruct (decide (id = br * nbc + bc)) as [->|Hne].
      - rewrite (decide_False (P := br * nbc + bc ∈ K)) by done. rewrite decide_True by left. apply app_nil_r.
      - rewrite (submatrix_kept_other br bc id Hbr Hbc (HK id ltac:(left)) Hne). cbn [app].
        destruct (decide (br * nbc + bc ∈ K)) as [Hin|Hin]; [by rewrite decide_True by (by right)|].
        rewrite decide_False; [done|]. intros [Heq|Hin']%elem_of_cons; [by apply Hne|done]. }
    apply Hgen; [|done]. pose proof (bids_sorted roff nbr coff nbc E) as Hs. clear -Hs.
    induction Hs as [|a l Hs IH Hf]; constructor; [|done]. intros Hin. rewrite Forall_forall in Hf. specialize (Hf a Hin). lia.
  Qed.
  Lemma thinned_dense br bc : br < nbr -> bc < nbc -> (br * nbc + bc ∈ I -> is_dense (gb_mat (made_block (br * nbc + bc)))) -> distinct_coords (submatrix roff br coff bc thinned).
  Proof.
    intros Hbr Hbc Hd. rewrite submatrix_thinned by done. destruct (decide _) as [Hid|]; [|constructor]. specialize (Hd Hid). rewrite submatrix_kept_own by done.
    unfold kept. destruct (gb_mat (made_block (br * nbc + bc))); try done. destruct (block_ids nbr nbc br bc Hbr Hbc) as [D1 D2].
    unfold distinct_coords. rewrite <- !list_fmap_compose. pose proof (keep_last_distinct (made_left (br * nbc + bc))) as Hk. unfold distinct_coords in Hk.
    erewrite list_fmap_ext; [exact Hk|]. intros k e _. unfold compose, global, ro, co. cbn [row col]. rewrite D1, D2. f_equal; lia.
  Qed.
  Lemma at_block_none id : id ∉ I -> at_block id = [].
  Proof.
    intros Hid. unfold blocks_at, group. apply filter_none, Forall_forall. intros e He. unfold has. apply Nat.eqb_neq. intros Hb. apply Hid. rewrite <- Hb. by apply blk_in_bids.
  Qed.
  Lemma thinned_plain br bc : br < nbr -> bc < nbc -> (br * nbc + bc ∈ I -> ~ is_dense (gb_mat (made_block (br * nbc + bc)))) ->
    same_elements (submatrix roff br coff bc thinned) (submatrix roff br coff bc E).
  Proof.
    intros Hbr Hbc Hd. destruct (block_ids nbr nbc br bc Hbr Hbc) as [D1 D2].
    pose proof (at_block_submatrix roff nbr rows coff nbc cols E (br * nbc + bc) Hr Hc HE ltac:(lia) ltac:(lia)) as Hs. rewrite D1, D2 in Hs.
    unfold same_elements in *. rewrite <- Hs. rewrite submatrix_thinned by done. destruct (decide _) as [Hid|Hid].
    - specialize (Hd Hid). rewrite submatrix_kept_own by done. unfold kept. destruct (gb_mat (made_block (br * nbc + bc))); try (by exfalso; apply Hd);
        unfold CgbrProof.local; rewrite <- !list_fmap_compose; apply reflexive_eq, list_fmap_ext; intros k e He;
        apply elem_of_list_lookup_2, blocks_at_elem in He as [He Hb]; unfold compose, coords, BlocksProof.loc, ro, co; cbn [row col val]; by rewrite Hb, D1, D2.
    - unfold CgbrProof.local. by rewrite (at_block_none _ Hid).
  Qed.

  (** the values *)
  Notation block_val := (block_val roff nbr coff nbc E make).
  Lemma block_val_kept x id i y : id ∈ I -> ro roff nbc id <= i -> block_val x id i y = row_acc (kept id) x i y.
  Proof.
    intros Hid Hi. pose proof (left_same id Hid) as Hl. pose proof (loc_range _ _ _ _ _ _ _ Hr Hc HE id Hid) as Hlr.
    assert (Hplain : row_acc (made_left id) (drop (co coff nbc id) x) (i - ro roff nbc id) y = row_acc (at_block id) x i y).
    { rewrite (row_acc_perm one SR _ _ _ _ _ Hl). unfold CgbrProof.local. rewrite (loc_row_acc _ _ _ _ _ _ _ Hr Hc HE). f_equal. lia. }
    unfold Cgbr3Proof.block_val, kept, mblock_value. destruct (gb_mat (made_block id)); try done.
    rewrite dense_row_acc_keep, (dense_row_acc_exact _ _ _ _ _ one SR (keep_last_distinct _)).
    rewrite <- (row_acc_dot one SR (rsz roff nbc id)).
    - replace i with (ro roff nbc id + (i - ro roff nbc id)) at 2 by lia.
      rewrite <- (row_acc_rebase (fun e => Elem (row e - ro roff nbc id) (col e - co coff nbc id) (val e) (blk e)) (global id <$> keep_last (made_left id)) x (ro roff nbc id) (co coff nbc id) (i - ro roff nbc id)).
      + rewrite <- list_fmap_compose. apply row_acc_coords. rewrite <- list_fmap_compose. apply list_fmap_ext. intros k e _.
        unfold compose, coords, global. cbn [row col val]. f_equal. f_equal; lia.
      + apply Forall_fmap, Forall_forall. intros e _. unfold compose, global. cbn [row col val]. split; [lia|]. split; [lia|done].
    - unfold in_range. apply Forall_forall. intros e He.
      assert (He2 : e ∈ local id).
      { rewrite <- Hl. eapply elem_of_submseteq; [exact He|]. apply sublist_submseteq, keep_last_sublist. }
      rewrite Forall_forall in Hlr. by apply Hlr.
  Qed.
  Lemma fold_group_blocks x i bi K y : (forall id, id ∈ K -> id ∈ I) -> block_of roff nbr i = bi -> i < rows ->
    fold_left (fun y id => row_acc (kept id) x i y) (bfilter (has (fun id => id / nbc) bi) K) y = row_acc (mjoin (kept <$> K)) x i y.
  Proof.
    intros HK Hbi Hi. revert y. induction K as [|id K IH]; intros y; [done|].
    change (mjoin (kept <$> id :: K)) with (kept id ++ mjoin (kept <$> K)). rewrite row_acc_app.
    assert (HK' : forall id, id ∈ K -> id ∈ I) by (intros id' Hid'; apply HK; by right). cbn [List.filter]. unfold has at 1.
    destruct (Nat.eqb_spec (id / nbc) bi) as [Heq|Hne]; [cbn [fold_left]; by apply IH|]. rewrite IH by done. f_equal.
    unfold row_acc. rewrite filter_none; [done|]. apply Forall_forall. intros e He. unfold in_row. apply Nat.eqb_neq. intros Hre.
    destruct (kept_inside id e (HK id ltac:(left)) He) as [G1 _]. destruct (bids_range _ _ _ _ _ _ _ Hr Hc HE id (HK id ltac:(left))) as (_ & D1 & _).
    apply Hne. rewrite <- Hbi. symmetry. apply (block_of_unique _ _ _ _ _ Hr D1). unfold in_block. lia.
  Qed.
  Lemma row_val_thin x i y : i < rows -> row_val roff nbr coff nbc E make x i y = row_acc thinned x i y.
  Proof.
    intros Hi. unfold row_val, row_blocks. set (bi := block_of roff nbr i). set (key := fun id : nat => id / nbc).
    destruct (block_of_spec roff nbr rows i Hr Hi) as [Hbi [Hb1 Hb2]]. fold bi in Hbi, Hb1, Hb2. cbv zeta.
    assert (Hks : ksorted key I).
    { pose proof (brs_sorted roff nbr coff nbc E) as Hb. unfold ksorted, BlocksProof.brs in *. by rewrite StronglySorted_fmap_iff in Hb. }
    pose proof (sorted_slice key I bi Hks) as Hsl. change (key <$> I) with brs in Hsl.
    rewrite cntlt_S in Hsl. replace (cntlt brs bi + cnteq brs bi - cntlt brs bi) with (cnteq brs bi) in Hsl by lia.
    rewrite (fold_seq_slice (fun y id => row_acc (kept id) x i y) _ I).
    - rewrite Hsl. by apply fold_group_blocks.
    - intros k id acc Hk Hid. rewrite (nth_lookup_Some I k 0 id Hid). apply block_val_kept; [by eapply elem_of_list_lookup_2|].
      pose proof (brs_between brs (brs_sorted roff nbr coff nbc E) bi k ltac:(rewrite cntlt_S; lia)) as Hkb.
      unfold BlocksProof.brs in Hkb. rewrite list_lookup_fmap, Hid in Hkb. injection Hkb as Hkb. unfold ro. rewrite Hkb. lia.
    - rewrite <- cntlt_S. etrans; [apply cntlt_le|]. unfold BlocksProof.brs. by rewrite fmap_length.
  Qed.
  Lemma rows_thin x y : length y = rows -> imap (row_val roff nbr coff nbc E make x) y = y_plus_Ax thinned cols x y.
  Proof.
    intros Hy. rewrite <- (spmv_in_order_exact one SR rows thinned cols) by (try done; apply thinned_range). unfold spmv_in_order.
    apply imap_ext_lt. intros i yi Hi. apply row_val_thin. lia.
  Qed.
  Lemma block_val_additive x id i y : block_val x id i y = sadd y (block_val x id i s0).
  Proof.
    unfold Cgbr3Proof.block_val, mblock_value. destruct SR as [A0 AC AA].
    assert (Hrow : forall L x r, row_acc L x r y = sadd y (row_acc L x r s0)).
    { intros L x' r. rewrite (row_acc_sum one SR _ x' r y), (row_acc_sum one SR _ x' r s0). by rewrite A0. }
    destruct (gb_mat (made_block id)); try apply Hrow.
    rewrite dense_row_acc_keep, (dense_row_acc_keep _ _ _ _ s0), !(dense_row_acc_exact _ _ _ _ _ one SR (keep_last_distinct _)). by rewrite A0.
  Qed.
  Lemma chunks_thin x parts y : length y = rows -> good_partition nbr brs parts -> imap (chunked_val roff nbr coff nbc E make x parts) y = y_plus_Ax thinned cols x y.
  Proof.
    intros Hy [Hlen Hgood]. rewrite <- rows_thin by done. apply imap_ext_lt. intros i yi Hi.
    destruct (block_of_spec roff nbr rows i Hr ltac:(lia)) as [Hbi _].
    destruct (lookup_lt_is_Some_2 parts (block_of roff nbr i)) as [chunks Hch]; [lia|].
    destruct (Hgood _ _ Hch) as [(Hcl & Hst & Hend & Hm) _].
    unfold chunked_val, row_chunks. rewrite (nth_lookup_Some parts _ [] chunks Hch). cbv zeta.
    rewrite (chunk_val_exact one SR); [| |done|lia|lia|lia].
    - rewrite Hst, Hend, cntlt_S. unfold row_val, row_blocks. cbv zeta. f_equal. f_equal. lia.
    - intros k z. apply block_val_additive.
  Qed.
End dups.
