(** CgbrProof.v: proofs about Cgbr.v *)
From Verif Require Export DenseProof Cgbr CsbrProof.
From Coq Require Import ZifyNat ZifyBool.

(** ** partitions when the loads may overflow: they still tile the block row *)
Section tiles.
  Context {T : Type} `{Scalar T} `{Widths}.
  Implicit Types A : blocked T.
  Lemma partition_blockrow_tiles A workers start end_ thr :
    min_nnz (bk_nnz A) workers = Ok thr -> start <= end_ -> end_ < itW ->
    (forall k, start <= k < end_ -> exists n, bk_nonzeros A k = Ok n) ->
    exists chunks, partition_blockrow A workers start end_ = Ok (chunks, length chunks) /\
      tiles chunks start end_ /\ length chunks <= end_ - start + 2.
  Proof.
    intros Hthr Hle Hw Hf.
    pose (J := fun (k : nat) (st : list nat * nat) => let '(chunks, _) := st in
      exists c, chunks !! 0 = Some start /\ last chunks = Some c /\ c <= k /\ 1 <= length chunks <= k - start + 1 /\
        (forall i c c', consecutive chunks i c c' -> c <= c')).
    unfold partition_blockrow. rewrite Hthr. cbn [mbind outcome_bind].
    match goal with |- context [for_range start end_ ?b ?i] => assert (Hloop : wp (for_range start end_ b i) (J end_)) end.
    { apply wp_for_range; [done| |].
      - exists start. cbn [length]. split; [done|]. split; [done|]. split; [lia|]. split; [lia|].
        intros i c c' [_ Hc]; destruct i; simpl in Hc; done.
      - intros k [chunks nnz] Hk (c & Hh & Hl & Hc & Hlen & Hm).
        destruct (Hf k Hk) as [n Hn]. rewrite Hn. cbn [mbind outcome_bind].
        destruct ((thr <? wadd nnz n) && (k <? wsub end_ 1)); cbn [wp].
        + exists k. rewrite app_length. cbn [length]. split; [by apply lookup_app_l_Some|].
          split; [by rewrite last_snoc|]. split; [lia|]. split; [lia|].
          intros i d d' Hd. apply consecutive_snoc in Hd as [Hd|(Hd1 & Hd2 & ->)]; [by eapply Hm|].
          rewrite Hl in Hd2. injection Hd2 as <-. done.
        + exists c. split; [done|]. split; [done|]. split; [lia|]. split; [lia|done]. }
    apply wp_exists in Hloop as ([chunks nnz] & -> & (c & Hh & Hl & Hc & Hlen & Hm)).
    cbn [mbind outcome_bind]. eexists. split; [reflexivity|].
    assert (Hlen' : length (chunks ++ [end_]) = S (length chunks)) by (rewrite app_length; simpl; lia).
    split; [|lia]. split; [lia|]. split; [|split].
    - apply nth_lookup_Some. by apply lookup_app_l_Some.
    - apply nth_lookup_Some. rewrite lookup_app_r by lia. by replace (length (chunks ++ [end_]) - 1 - length chunks) with 0 by lia.
    - intros i Hi.
      assert (Hd : consecutive (chunks ++ [end_]) i (nth i (chunks ++ [end_]) 0) (nth (S i) (chunks ++ [end_]) 0)) by (split; apply nth_some; lia).
      apply consecutive_snoc in Hd as [Hd|(Hd1 & Hd2 & Hd3)]; [by eapply Hm|].
      rewrite Hl in Hd2. injection Hd2 as <-. lia.
  Qed.
  Lemma partition_init_tiles A nbr brs workers thr :
    bk_blockrows A = nbr -> bk_ptr A = full (ptrs brs nbr) -> min_nnz (bk_nnz A) workers = Ok thr ->
    (forall k, k < length brs -> exists n, bk_nonzeros A k = Ok n) -> 2 * (length brs + 2) < itW ->
    exists parts, partition_init A workers = Ok parts /\ good_partition nbr brs parts.
  Proof.
    intros Hbr Hptr Hthr Hf Hw.
    pose (J := fun (i : nat) (parts : list (list nat)) => length parts = i /\
      forall bi chunks, parts !! bi = Some chunks -> tiles chunks (cntlt brs bi) (cntlt brs (S bi)) /\ 2 * length chunks < itW).
    unfold partition_init. rewrite Hbr.
    match goal with |- context [for_range 0 nbr ?b ?i] => assert (Hloop : wp (for_range 0 nbr b i) (J nbr)) end.
    { apply wp_for_range; [lia|by split|]. intros bi parts Hbi [HJ1 HJ2].
      rewrite Hptr, !ptrs_get by lia. cbn [mbind outcome_bind]. replace (bi + 1) with (S bi) by lia.
      pose proof (cntlt_mono brs bi (S bi) ltac:(lia)). pose proof (cntlt_le brs (S bi)).
      destruct (partition_blockrow_tiles A workers (cntlt brs bi) (cntlt brs (S bi)) thr) as (chunks & Hch & Hp & Hpl); [done|lia|lia| |].
      - intros k Hk. apply Hf. lia.
      - rewrite Hch. cbn [mbind outcome_bind wp]. split; [rewrite app_length; simpl; lia|].
        intros bi' chunks' Hlk. apply lookup_app_Some in Hlk as [Hlk|[Hge Hlk]]; [by apply HJ2|].
        rewrite HJ1 in *. destruct (bi' - bi) as [|d] eqn:Ed; [|by destruct d]. simpl in Hlk. injection Hlk as <-.
        replace bi' with bi by lia. split; [done|lia]. }
    apply wp_exists in Hloop as (parts & -> & HJ). exists parts. by split.
  Qed.
End tiles.

(** ** the loop of the constructors *)
Section scan.
  Context {T : Type} `{Scalar T} `{Widths}.
  Implicit Types (E P G R : list (elem T)) (e : elem T).
  Lemma scan_block_spec P G R id : G <> [] -> Forall (fun e => blk e = id) G ->
    (forall e, R !! 0 = Some e -> blk e <> id) -> length (P ++ G ++ R) < itW ->
    scan_block (P ++ G ++ R) id (wadd (length P) 1) = Ok (length P + length G).
  Proof.
    intros HG Hid HR Hw. set (E := P ++ G ++ R) in *. apply wp_eq.
    assert (Hlen : length E = length P + (length G + length R)) by (unfold E; by rewrite !app_length).
    assert (HG1 : 1 <= length G) by (destruct G; [done|simpl; lia]).
    assert (wadd (length P) 1 = length P + 1) as -> by (apply wrap_small; lia).
    unfold scan_block. eapply wp_mono.
    - apply (wp_while (fun j => length P + 1 <= j <= length P + length G) (fun j => length E - j)).
      + lia.
      + lia.
      + intros j Hj. destruct (Nat.ltb_spec j (length E)) as [Hlt|Hge]; [|done].
        destruct (lookup_lt_is_Some_2 E j Hlt) as [e He]. rewrite (lget_some _ _ _ He). cbn [mbind outcome_bind wp]. intros Hb.
        apply Nat.eqb_eq in Hb.
        assert (j < length P + length G).
        { destruct (decide (j < length P + length G)) as [|Hn]; [done|]. exfalso. apply (HR e); [|done].
          unfold E in He. rewrite lookup_app_r, lookup_app_r in He by lia. by replace (j - length P - length G) with 0 in He by lia. }
        assert (wadd j 1 = j + 1) as -> by (apply wrap_small; lia). cbn [wp]. lia.
    - intros j [Hj Hc]. destruct (decide (j < length P + length G)) as [Hlt|]; [|lia]. exfalso.
      rewrite (proj2 (Nat.ltb_lt j (length E))) in Hc by lia.
      destruct (lookup_lt_is_Some_2 E j) as [e He]; [lia|]. rewrite (lget_some _ _ _ He) in Hc. cbn [mbind outcome_bind] in Hc.
      unfold E in He. rewrite lookup_app_r, lookup_app_l in He by lia. rewrite Forall_lookup in Hid. rewrite (Hid _ _ He), Nat.eqb_refl in Hc. done.
  Qed.
  Lemma rebase_spec P G R (g : geometry) (f : elem T -> elem T) :
    Forall (fun e => check_inside g e = Ok tt /\ Elem (wsub (row e) (g_ro g)) (wsub (col e) (g_co g)) (val e) (blk e) = f e) G ->
    rebase (P ++ G ++ R) g (length P) (length P + length G) = Ok (P ++ (f <$> G) ++ R).
  Proof.
    intros HG. apply wp_eq. unfold rebase. eapply wp_mono.
    - apply (wp_for_range (fun k E => E = P ++ (f <$> take (k - length P) G) ++ drop (k - length P) G ++ R)).
      + lia.
      + by rewrite Nat.sub_diag, take_0, drop_0.
      + intros k E Hk ->. destruct (lookup_lt_is_Some_2 G (k - length P)) as [e He]; [lia|].
        assert (Hf : length (f <$> take (k - length P) G) = k - length P) by (rewrite fmap_length, take_length; lia).
        rewrite (lget_some _ _ e).
        2:{ rewrite lookup_app_r by lia. rewrite lookup_app_r by lia. rewrite Hf, Nat.sub_diag. rewrite (drop_S _ _ _ He). done. }
        cbn [mbind outcome_bind]. rewrite Forall_lookup in HG. destruct (HG _ _ He) as [-> ->]. cbn [mbind outcome_bind].
        rewrite (drop_S _ _ _ He). apply wp_lset.
        * rewrite !app_length, Hf. cbn. lia.
        * rewrite insert_app_r_alt by lia. f_equal. rewrite insert_app_r_alt by lia. rewrite Hf, Nat.sub_diag. cbn.
          replace (S k - length P) with (S (k - length P)) by lia. rewrite (take_S_r _ _ _ He), fmap_app. by rewrite <- app_assoc.
    - intros E ->. replace (length P + length G - length P) with (length G) by lia. rewrite take_ge, drop_ge by lia. done.
  Qed.
End scan.

(** tallies by type *)
Definition tally (K : list (nat * nat)) (t : nat) : nat := sum_list_with (fun '(ty, n) => if ty =? t then n else 0) K.
Definition tallies (K : list (nat * nat)) : list nat := tally K <$> seq 0 MATRIX_TYPE_NUM.
Lemma tally_app K1 K2 t : tally (K1 ++ K2) t = tally K1 t + tally K2 t.
Proof. unfold tally. apply sum_list_with_app. Qed.
Lemma tally_le K t : tally K t <= sum_list_with snd K.
Proof. unfold tally. induction K as [|[ty n] K IH]; [done|]. cbn. destruct (ty =? t); lia. Qed.
Lemma tallies_nil : full (tallies []) = new_arr0 0 MATRIX_TYPE_NUM.
Proof. done. Qed.
Lemma tallies_get K t : t < MATRIX_TYPE_NUM -> aget (full (tallies K)) t = Ok (tally K t).
Proof. intros Ht. rewrite aget_full. apply lget_some. unfold tallies. by rewrite fmap_seq_lookup. Qed.
Lemma tallies_set K t n : t < MATRIX_TYPE_NUM -> aset (full (tallies K)) t (tally K t + n) = Ok (full (tallies (K ++ [(t, n)]))).
Proof.
  intros Ht. rewrite aset_full by (unfold tallies; by rewrite fmap_length, seq_length). f_equal. f_equal. unfold tallies.
  rewrite fmap_seq_insert by done. apply fmap_seq_ext. intros i Hi. rewrite tally_app. cbn.
  destruct (Nat.eqb_spec i t) as [->|Hne]; [by rewrite Nat.eqb_refl, Nat.add_0_r|]. rewrite (proj2 (Nat.eqb_neq t i)) by done. lia.
Qed.
Lemma tallies_incr `{Widths} K t : t < MATRIX_TYPE_NUM -> S (sum_list_with snd K) < itW ->
  incr (full (tallies K)) t = Ok (full (tallies (K ++ [(t, 1)]))).
Proof.
  intros Ht Hw. unfold incr. rewrite tallies_get by done. cbn [mbind outcome_bind]. pose proof (tally_le K t).
  assert (wadd (tally K t) 1 = tally K t + 1) as -> by (apply wrap_small; lia). by apply tallies_set.
Qed.
(** all types together *)
Lemma tallies_total K : Forall (fun p => p.1 < MATRIX_TYPE_NUM) K -> sum_list_with id (tallies K) = sum_list_with snd K.
Proof.
  induction K as [|[ty n] K IH]; [done|]. intros Hf. inversion_clear Hf as [|? ? H1 H2]. cbn [sum_list_with snd]. rewrite <- (IH H2). cbn in H1.
  unfold MATRIX_TYPE_NUM in H1. unfold tallies, MATRIX_TYPE_NUM. cbn [seq fmap list_fmap sum_list_with id].
  assert (Hc : forall t, tally ((ty, n) :: K) t = (if ty =? t then n else 0) + tally K t) by done. rewrite !Hc.
  do 6 (destruct ty as [|ty]; [cbn [Nat.eqb]; lia|]). lia.
Qed.

Section fill.
  Context {T : Type} `{Scalar T} `{Widths}.
  Context (roff : list nat) (nbr rows : nat) (coff : list nat) (nbc cols : nat) (E : list (elem T)).
  Context (Hr : blocking roff nbr rows) (Hc : blocking coff nbc cols) (HE : in_range rows cols E).
  Context (Hne : E <> []) (Hnr : nbr <= rows) (Hnc : nbc <= cols) (Hids : numbered roff nbr coff nbc E).
  Context (Hrows : rows + 1 < itW) (Hcols : cols < itW) (Hnnz : length E < itW).
  Context (make : factory (T := T)).
  Notation E' := (bsorted roff nbr coff nbc E).
  Notation I := (bids roff nbr coff nbc E).
  Notation lc := (BlocksProof.loc roff coff nbc).
  Notation at_block := (blocks_at roff nbr coff nbc E).

  (** a block's elements in block coordinates, what the factory makes of them *)
  Definition local (id : nat) : list (elem T) := lc <$> at_block id.
  Definition made (id : nat) : gblock T * nat * list (elem T) :=
    match make (local id) (rsz roff nbc id) (csz coff nbc id) with
    | Ok r => r
    | _ => (GBlock 0 (MCoo (Coo1 0 [] [] [])), 0, [])
    end.
  Definition made_block (id : nat) : gblock T := (made id).1.1.
  Definition made_type (id : nat) : nat := (made id).1.2.
  Definition made_left (id : nat) : list (elem T) := (made id).2.
  Context (Hmake : forall id, id ∈ I -> exists B ty L, make (local id) (rsz roff nbc id) (csz coff nbc id) = Ok (B, ty, L) /\
     length L = length (local id) /\ ty < MATRIX_TYPE_NUM).

  Lemma made_spec id : id ∈ I -> make (local id) (rsz roff nbc id) (csz coff nbc id) = Ok (made_block id, made_type id, made_left id) /\
     length (made_left id) = length (at_block id) /\ made_type id < MATRIX_TYPE_NUM.
  Proof.
    intros Hid. destruct (Hmake id Hid) as (B & ty & L & HB & HL & Hty). unfold made_block, made_type, made_left, made. rewrite HB. cbn.
    split; [done|]. split; [|done]. rewrite HL. unfold local. by rewrite fmap_length.
  Qed.

  Definition fill_state (K1 K2 : list nat) : fill_st (T := T) :=
    (length (mjoin (at_block <$> K1)), length K1, mjoin (made_left <$> K1) ++ mjoin (at_block <$> K2),
     full (counters ((fun id => id / nbc) <$> K1) nbr), part ((fun id => id mod nbc) <$> K1) (length I),
     part (made_block <$> K1) (length I), full (tallies ((fun id => (made_type id, 1)) <$> K1)),
     full (tallies ((fun id => (made_type id, length (at_block id))) <$> K1))).

  Lemma join_lengths {A B} (f : nat -> list A) (g : nat -> list B) K : (forall id, id ∈ K -> length (f id) = length (g id)) ->
    length (mjoin (f <$> K)) = length (mjoin (g <$> K)).
  Proof.
    induction K as [|id K IH]; intros Hf; [done|]. cbn. rewrite !app_length, Hf by left. f_equal. apply IH. intros; apply Hf; by right.
  Qed.
  Lemma all_blocks : mjoin (at_block <$> I) = E'.
  Proof. apply (concat_groups blk _ (bsorted_ksorted roff nbr coff nbc E)). Qed.

  Lemma sum_ones {A} (f : A -> nat) (K : list A) : sum_list_with snd ((fun id => (f id, 1)) <$> K) = length K.
  Proof. induction K as [|a K IH]; [done|]. cbn. by rewrite IH. Qed.
  Lemma sum_sizes {A B} (f : A -> nat) (g : A -> list B) (K : list A) : sum_list_with snd ((fun id => (f id, length (g id))) <$> K) = length (mjoin (g <$> K)).
  Proof. induction K as [|a K IH]; [done|]. cbn. by rewrite app_length, IH. Qed.

  Lemma fill_step K1 id K2 : I = K1 ++ id :: K2 ->
    fill_body make (full roff) (full coff) nbc (fill_state K1 (id :: K2)) = Ok (fill_state (K1 ++ [id]) K2).
  Proof.
    intros HI. assert (Hid : id ∈ I) by (rewrite HI; set_solver).
    assert (HK1 : forall k, k ∈ K1 -> k ∈ I) by (intros k Hk; rewrite HI; set_solver).
    destruct (made_spec id Hid) as (Hm & Hml & Hmt).
    assert (HP : length (mjoin (made_left <$> K1)) = length (mjoin (at_block <$> K1))).
    { apply join_lengths. intros k Hk. by apply made_spec, HK1. }
    assert (Hlen : length (mjoin (at_block <$> K1)) + (length (at_block id) + length (mjoin (at_block <$> K2))) = length E).
    { rewrite <- (bsorted_length roff nbr coff nbc E), <- all_blocks, HI, fmap_app, join_app, app_length. cbn. by rewrite app_length. }
    assert (HG : at_block id <> []).
    { apply bids_elem in Hid as (e & He & Hb). intros Hn. assert (e ∈ at_block id) as Hin.
      { unfold blocks_at, group. apply elem_of_list_In, filter_In. split; [by apply elem_of_list_In|]. unfold has. by rewrite Hb, Nat.eqb_refl. }
      rewrite Hn in Hin. by apply elem_of_nil in Hin. }
    assert (Hblk : Forall (fun e => blk e = id) (at_block id)).
    { apply Forall_forall. intros e He. by apply blocks_at_elem in He as [_ ?]. }
    assert (HR : forall e, mjoin (at_block <$> K2) !! 0 = Some e -> blk e <> id).
    { intros e He Hb. apply elem_of_list_lookup_2 in He. apply elem_of_list_join in He as (L & He & HL).
      apply elem_of_list_fmap in HL as (k & -> & Hk). apply blocks_at_elem in He as [_ He].
      pose proof (increasing_NoDup _ (bids_sorted roff nbr coff nbc E)) as Hnd. rewrite HI in Hnd.
      apply NoDup_app in Hnd as (_ & _ & Hnd). inversion_clear Hnd. congruence. }
    assert (Hk1 : length K1 < length I) by (rewrite HI, app_length; cbn; lia).
    pose proof (bids_length roff nbr coff nbc E) as HIl.
    unfold fill_state, fill_body. cbn [fmap list_fmap mjoin list_join].
    change (mjoin (at_block id :: (at_block <$> K2))) with (at_block id ++ mjoin (at_block <$> K2)).
    fold (mjoin (at_block <$> K2)).
    set (P := mjoin (made_left <$> K1)) in *. set (R := mjoin (at_block <$> K2)) in *. rewrite <- HP.
    destruct (at_block id) as [|e0 G0] eqn:HG0; [done|].
    rewrite (lget_some _ _ e0) by (rewrite lookup_app_r, Nat.sub_diag by lia; done). cbn [mbind outcome_bind].
    rewrite <- HG0 in *. assert (blk e0 = id) as Hb0.
    { rewrite HG0 in Hblk. by apply Forall_inv in Hblk. }
    rewrite Hb0. rewrite scan_block_spec by (done || (rewrite !app_length; lia)). cbn [mbind outcome_bind].
    rewrite (block_geometry_ok roff nbr rows coff nbc cols E Hr Hc HE id Hid) by lia. cbn [mbind outcome_bind].
    destruct (bids_range _ _ _ _ _ _ _ Hr Hc HE id Hid) as (_ & Hd1 & Hd2 & _).
    rewrite incr_step by first [exact Hd1|rewrite fmap_length; lia]. cbn [mbind outcome_bind].
    pose proof (part_set ((fun id => id mod nbc) <$> K1) (length I) (id mod nbc)) as Hp1. rewrite fmap_length in Hp1.
    rewrite Hp1 by lia. cbn [mbind outcome_bind].
    rewrite (rebase_spec P (at_block id) R _ lc).
    2:{ apply Forall_forall. intros e He. apply blocks_at_elem in He as [He Hb]. rewrite <- Hb.
        rewrite (check_inside_ok roff nbr rows coff nbc cols E Hr Hc HE e He) by lia. split; [done|]. unfold geo. cbn [g_ro g_co].
        destruct (wsub_row roff nbr rows coff nbc cols E Hr Hc HE e He Hrows) as [_ ->].
        rewrite (wsub_col roff nbr rows coff nbc cols E Hr Hc HE e He) by lia. done. }
    cbn [mbind outcome_bind].
    replace (length P + length (at_block id) - length P) with (length (at_block id)) by lia.
    assert (Hs : slice (length P) (length (at_block id)) (P ++ (lc <$> at_block id) ++ R) = local id).
    { unfold slice. rewrite drop_app. rewrite take_app_alt; [done|]. by rewrite fmap_length. }
    rewrite Hs. unfold geo. cbn [g_rs g_cs]. rewrite Hm. cbn [mbind outcome_bind].
    pose proof (part_set (made_block <$> K1) (length I) (made_block id)) as Hp2. rewrite fmap_length in Hp2.
    rewrite Hp2 by lia. cbn [mbind outcome_bind].
    rewrite tallies_incr by (done || (rewrite sum_ones; lia)). cbn [mbind outcome_bind].
    rewrite tallies_get by done. cbn [mbind outcome_bind].
    set (N := (fun id => (made_type id, length (at_block id))) <$> K1) in *.
    assert (HN : tally N (made_type id) <= length P). { etrans; [apply tally_le|]. unfold N. rewrite sum_sizes. lia. }
    rewrite wsub_small by lia. replace (length P + length (at_block id) - length P) with (length (at_block id)) by lia.
    assert (wadd (tally N (made_type id)) (length (at_block id)) = tally N (made_type id) + length (at_block id)) as -> by (apply wrap_small; lia).
    rewrite tallies_set by done. cbn [mbind outcome_bind].
    assert (wadd (length K1) 1 = length (K1 ++ [id])) as -> by (rewrite app_length; cbn; apply wrap_small; lia).
    assert (Hdrop : drop (length P + length (at_block id)) (P ++ (lc <$> at_block id) ++ R) = R).
    { rewrite app_assoc. apply drop_app_alt. by rewrite app_length, fmap_length. }
    rewrite Hdrop, take_app. f_equal. rewrite !fmap_app, !join_app. cbn [fmap list_fmap].
    assert (Hj1 : forall {A} (L : list A), mjoin [L] = L) by (intros A L; cbn; apply app_nil_r). rewrite !Hj1. fold P R N.
    rewrite !app_length, <- HP. rewrite <- !app_assoc. done.
  Qed.
  Lemma fill_blocks_spec :
    fill_blocks make (full roff) (full coff) nbc (fill_state [] I) = Ok (fill_state I []).
  Proof.
    apply wp_eq. unfold fill_blocks, fill_state at 1. cbn [fmap list_fmap mjoin list_join app].
    assert (HlenE : length (mjoin (at_block <$> I)) = length E) by (rewrite all_blocks; apply bsorted_length).
    assert (Hst : forall K1 K2, I = K1 ++ K2 -> length (mjoin (made_left <$> K1) ++ mjoin (at_block <$> K2)) = length E).
    { intros K1 K2 HI. rewrite app_length, (join_lengths made_left at_block).
      - rewrite <- app_length, <- join_app, <- fmap_app, <- HI. done.
      - intros k Hk. apply made_spec. rewrite HI. set_solver. }
    fold (mjoin (at_block <$> I)). rewrite HlenE. eapply wp_mono.
    - apply (wp_while (fun st => exists K1 K2, I = K1 ++ K2 /\ st = fill_state K1 K2) (fun '(i, _, _, _, _, _, _, _) => length E - i)).
      + by exists [], I.
      + cbn. lia.
      + intros st (K1 & K2 & HI & ->). unfold fill_state at 1. rewrite (Hst K1 K2 HI). cbn [wp].
        intros Hlt. apply Nat.ltb_lt in Hlt. destruct K2 as [|id K2].
        { rewrite app_nil_r in HI. rewrite <- HI in Hlt. lia. }
        rewrite (fill_step K1 id K2 HI). cbn [wp]. split; [exists (K1 ++ [id]), K2; split; [by rewrite <- app_assoc|done]|].
        unfold fill_state. rewrite fmap_app, join_app, app_length. cbn [fmap list_fmap].
        assert (1 <= length (mjoin [at_block id])); [|lia]. cbn. rewrite app_nil_r.
        assert (id ∈ I) as Hid by (rewrite HI; set_solver). apply bids_elem in Hid as (e & He & Hb).
        assert (e ∈ at_block id) as Hin.
        { unfold blocks_at, group. apply elem_of_list_In, filter_In. split; [by apply elem_of_list_In|]. unfold has. by rewrite Hb, Nat.eqb_refl. }
        destruct (at_block id); [by apply elem_of_nil in Hin|cbn; lia].
    - intros st [(K1 & K2 & HI & ->) Hc2]. unfold fill_state at 1 in Hc2. rewrite (Hst K1 K2 HI) in Hc2.
      injection Hc2 as Hc2. apply Nat.ltb_ge in Hc2. destruct K2 as [|id K2]; [rewrite app_nil_r in HI; by subst K1|]. exfalso.
      rewrite HI, fmap_app, join_app, app_length in HlenE. cbn in HlenE. rewrite app_length in HlenE.
      assert (id ∈ I) as Hid by (rewrite HI; set_solver). apply bids_elem in Hid as (e & He & Hb).
      assert (e ∈ at_block id) as Hin.
      { unfold blocks_at, group. apply elem_of_list_In, filter_In. split; [by apply elem_of_list_In|]. unfold has. by rewrite Hb, Nat.eqb_refl. }
      destruct (at_block id); [by apply elem_of_nil in Hin|]. cbn in HlenE. lia.
  Qed.

  Definition cgbr_matrix : cgbr T :=
    Cgbr rows cols (length E) nbr nbc (length I) (full roff) (full coff) (full (made_block <$> I))
      (full (ptrs (brs roff nbr coff nbc E) nbr)) (full ((fun id => id mod nbc) <$> I))
      (full (tallies ((fun id => (made_type id, 1)) <$> I)))
      (full (tallies ((fun id => (made_type id, length (at_block id))) <$> I))).
  Definition cgbr_source : list (elem T) := mjoin (made_left <$> I).
  Lemma cgbr_fill_spec :
    cgbr_fill make (Coo rows cols E) E' (full roff) nbr (full coff) nbc (length I) = Ok (cgbr_matrix, Coo rows cols cgbr_source).
  Proof.
    unfold cgbr_fill. unfold c_nnz. cbn [c_elems c_rows c_cols].
    assert (Hpos : 0 < nbr /\ 0 < nbc).
    { destruct E as [|e0 l0]; [done|]. apply Forall_inv in HE. destruct HE as [He1 He2].
      pose proof (block_of_spec _ _ _ _ Hr He1) as [? _]. pose proof (block_of_spec _ _ _ _ Hc He2) as [? _]. lia. }
    assert (wadd nbr 1 = S nbr) as -> by (unfold wadd; rewrite wrap_small; nia).
    pose proof fill_blocks_spec as Hfill. unfold fill_state at 1 in Hfill. cbn [fmap list_fmap] in Hfill.
    rewrite counters_nil, !part_nil, tallies_nil in Hfill. cbn [mjoin list_join length app] in Hfill. fold (mjoin (at_block <$> I)) in Hfill.
    rewrite all_blocks in Hfill. rewrite Hfill. unfold fill_state. cbn [mbind outcome_bind].
    pose proof (bids_length roff nbr coff nbc E) as HIl.
    rewrite prefix_sum_spec by (rewrite fmap_length; lia). cbn [mbind outcome_bind].
    rewrite ptrs_get by lia. cbn [mbind outcome_bind].
    rewrite cntlt_all; [|by eapply brs_range]. rewrite fmap_length, Nat.eqb_refl. cbn [assert_ mbind outcome_bind].
    rewrite !part_full_len by apply fmap_length. cbn [fmap list_fmap mjoin list_join]. rewrite app_nil_r. done.
  Qed.

  (** ** what the blocks compute *)
  Section spmv.
    Context (x : list T) (Hx : cols <= length x) (nz : gblock T -> outcome nat).
    Context (g : nat -> list T -> nat -> T -> T).
    (** block id computes [g id] on x from its first column on *)
    Context (Hg : forall id, id ∈ I -> forall xo b o, xo + csz coff nbc id <= length x ->
       performs (mblock_spmv (gb_mat (made_block id)) x xo b o) b o (rsz roff nbc id) (fun _ => False) (g id (drop xo x))).
    Lemma cgbr_block_does k id : I !! k = Some id ->
      block_does (cgbr_view nz cgbr_matrix) x k (rsz roff nbc id) (g id (drop (co coff nbc id) x)).
    Proof.
      clear Hmake. intros Hk b o. unfold one_block, cgbr_view, cgbr_matrix. cbn [bk_ind bk_coff bk_spmv cg_ind cg_coff cg_blocks].
      assert (Hid : id ∈ I) by (by eapply elem_of_list_lookup_2).
      destruct (bids_range _ _ _ _ _ _ _ Hr Hc HE id Hid) as (_ & H1 & H2 & _).
      destruct (geometry_range _ _ _ _ _ _ _ Hr Hc HE id Hid) as (G1 & G2 & _).
      eapply performs_lift; [rewrite aget_full; apply lget_some; rewrite list_lookup_fmap, Hk; reflexivity|].
      eapply performs_lift; [apply (blocking_get _ _ _ _ Hc); lia|]. fold (co coff nbc id).
      eapply performs_lift; [rewrite aget_full; apply lget_some; rewrite list_lookup_fmap, Hk; reflexivity|].
      apply Hg; [done|lia].
    Qed.
  End spmv.
End fill.
