(** UtilsProof.v: proofs about Utils.v *)
From Verif Require Export Utils Count SortProof.
From Coq Require Import ZifyNat ZifyBool.

(** ** blockings *)
Lemma nth_some {A} (l : list A) i d : i < length l -> l !! i = Some (nth i l d).
Proof. intros Hi. destruct (nth_lookup_or_length l i d) as [?|?]; [done|lia]. Qed.
Lemma blocking_mono off nb n i j : blocking off nb n -> i <= j -> j <= nb -> nth i off 0 <= nth j off 0.
Proof.
  intros (Hl & _ & _ & Hm) Hij. induction Hij as [|j Hij IH]; intros Hj; [done|].
  specialize (IH ltac:(lia)). specialize (Hm j ltac:(lia)). lia.
Qed.
Lemma blocking_le off nb n b : blocking off nb n -> b <= nb -> nth b off 0 <= n.
Proof.
  intros Hb Hle. pose proof (blocking_mono off nb n b nb Hb Hle ltac:(lia)) as Hm.
  destruct Hb as (_ & _ & He & _). lia.
Qed.
Lemma blocking_lookup off nb n b : blocking off nb n -> b <= nb -> off !! b = Some (nth b off 0).
Proof. intros (Hl & _) Hb. apply nth_some. lia. Qed.
Lemma blocking_get off nb n b : blocking off nb n -> b <= nb -> aget (full off) b = Ok (nth b off 0).
Proof. intros Hb Hle. rewrite aget_full. apply lget_some. by eapply blocking_lookup. Qed.
Lemma in_block_unique off nb n b b' i : blocking off nb n -> b < nb -> b' < nb ->
  in_block off b i -> in_block off b' i -> b = b'.
Proof.
  intros Hb H1 H2 [H3 H4] [H5 H6]. destruct (Nat.lt_trichotomy b b') as [Hlt|[Heq|Hgt]]; [|done|].
  - pose proof (blocking_mono off nb n (S b) b' Hb ltac:(lia) ltac:(lia)). lia.
  - pose proof (blocking_mono off nb n (S b') b Hb ltac:(lia) ltac:(lia)). lia.
Qed.
(** the block an index lies in: the number of block starts (after the first) at or below it *)
Fixpoint block_of (off : list nat) (nb i : nat) : nat :=
  match nb with
  | O => 0
  | S b => if nth b off 0 <=? i then b else block_of off b i
  end.
Lemma block_of_spec off nb n i : blocking off nb n -> i < n -> block_of off nb i < nb /\ in_block off (block_of off nb i) i.
Proof.
  intros Hb Hi. pose proof Hb as (Hl & H0 & Hn & Hm).
  assert (Hgen : forall m, m <= nb -> i < nth m off 0 -> block_of off m i < m /\ in_block off (block_of off m i) i).
  { induction m as [|m IH]; intros Hle Hlt; [lia|]. cbn [block_of].
    destruct (Nat.leb_spec (nth m off 0) i) as [Hc|Hc].
    - split; [lia|]. split; done.
    - destruct (IH ltac:(lia) Hc). split; [lia|done]. }
  apply Hgen; [done|]. lia.
Qed.
Lemma block_of_unique off nb n i b : blocking off nb n -> b < nb -> in_block off b i -> block_of off nb i = b.
Proof.
  intros Hb Hlt Hin. assert (Hi : i < n).
  { pose proof (blocking_le off nb n (S b) Hb ltac:(lia)). destruct Hin. lia. }
  destruct (block_of_spec off nb n i Hb Hi). eapply in_block_unique; eauto.
Qed.

Section proofs.
  Context {T : Type} `{Widths}.
  Implicit Types E : list (elem T).

  (** *** index_to_blockindex *)
  Lemma ub_loop_spec fuel (off : list nat) index first len :
    (forall i j, i <= j -> j < length off -> nth i off 0 <= nth j off 0) ->
    first + len <= length off -> len < fuel ->
    wp (ub_loop fuel (full off) index first len)
       (fun r => first <= r <= first + len /\
          (forall j, first <= j < r -> nth j off 0 <= index) /\ (forall j, r <= j < first + len -> index < nth j off 0)).
  Proof.
    intros Hmono. revert first len. induction fuel as [|f IH]; intros first len Hle Hf; [lia|]. cbn [ub_loop].
    destruct (decide (0 < len)) as [Hpos|Hz].
    - set (half := len / 2). assert (Hh : half < len) by (apply Nat.div_lt; lia).
      rewrite aget_full. rewrite (lget_some _ _ _ (nth_some off (first + half) 0 ltac:(lia))).
      cbn [mbind outcome_bind]. destruct (Nat.ltb_spec index (nth (first + half) off 0)) as [Hc|Hc].
      + eapply wp_mono; [apply IH; lia|]. intros r (Hr & Hlow & Hhigh). split; [lia|]. split; [done|].
        intros j Hj. destruct (decide (j < first + half)); [apply Hhigh; lia|].
        pose proof (Hmono (first + half) j ltac:(lia) ltac:(lia)). lia.
      + eapply wp_mono; [apply IH; lia|]. intros r (Hr & Hlow & Hhigh). split; [lia|]. split.
        * intros j Hj. destruct (decide (S (first + half) <= j)); [apply Hlow; lia|].
          pose proof (Hmono j (first + half) ltac:(lia) ltac:(lia)). lia.
        * intros j Hj. apply Hhigh. lia.
    - cbn [wp]. split; [lia|]. split; intros j Hj; lia.
  Qed.
  Lemma index_to_blockindex_spec off nb n i :
    blocking off nb n -> i < n -> nb < itW ->
    index_to_blockindex (full off) nb i = Ok (block_of off nb i).
  Proof.
    intros Hb Hi Hw. pose proof Hb as (Hl & H0 & Hn & Hm). apply wp_eq. unfold index_to_blockindex.
    apply wp_bind. eapply wp_mono.
    { apply ub_loop_spec; [|lia|lia]. intros j k Hjk Hk. eapply blocking_mono; [exact Hb|done|lia]. }
    intros r (Hr & Hlow & Hhigh). cbn [wp].
    destruct (block_of_spec off nb n i Hb Hi) as [Hbn [Hb1 Hb2]].
    assert (Hrr : r = S (block_of off nb i)).
    { destruct (Nat.lt_trichotomy r (S (block_of off nb i))) as [Hlt|[Heq|Hgt]]; [|done|].
      - specialize (Hhigh (block_of off nb i) ltac:(lia)). lia.
      - specialize (Hlow (S (block_of off nb i)) ltac:(lia)). lia. }
    rewrite Hrr. unfold wrap. replace (S (block_of off nb i) + (itW - 1)) with (block_of off nb i + 1 * itW) by lia.
    rewrite Nat.mod_add by lia. apply Nat.mod_small. lia.
  Qed.

  (** *** size_to_offset *)
  Lemma size_to_offset_spec (sizes : list nat) (old : arr nat) :
    length old = S (length sizes) -> foldr Nat.add 0 sizes < itW ->
    size_to_offset old (full sizes) (length sizes) =
      Ok (full ((fun k => foldr Nat.add 0 (take k sizes)) <$> seq 0 (S (length sizes)))).
  Proof.
    intros Hlen Hw. apply wp_eq. unfold size_to_offset.
    assert (Hsum : forall k, foldr Nat.add 0 (take k sizes) <= foldr Nat.add 0 sizes).
    { intros k. rewrite <- (take_drop k sizes) at 2. rewrite foldr_app.
      generalize (foldr Nat.add 0 (drop k sizes)). intros z.
      induction (take k sizes) as [|a l IHl]; simpl; lia. }
    assert (Hsnoc : forall k a, sizes !! k = Some a -> foldr Nat.add 0 (take (S k) sizes) = foldr Nat.add 0 (take k sizes) + a).
    { intros k a Hk. rewrite (take_S_r _ _ _ Hk), foldr_app. simpl. rewrite Nat.add_0_r.
      generalize (take k sizes). intros l. induction l as [|b l IHl]; simpl; lia. }
    apply wp_bind. apply wp_aset; [lia|].
    apply wp_bind. eapply wp_mono.
    { apply (wp_for_range (fun i '(o, acc) =>
        acc = foldr Nat.add 0 (take i sizes) /\ length o = S (length sizes) /\
        forall k, k <= i -> o !! k = Some (Some (foldr Nat.add 0 (take k sizes))))); [lia| |].
      - split; [done|]. split; [by rewrite insert_length|].
        intros k Hk. assert (k = 0) as -> by lia. rewrite list_lookup_insert by lia. done.
      - intros i [o acc] Hi (-> & Hlo & Hk).
        destruct (lookup_lt_is_Some_2 sizes i) as [s Hs]; [lia|].
        rewrite aget_full, (lget_some _ _ _ Hs). cbn [mbind outcome_bind].
        assert (Hacc : (if i =? 0 then s else wadd (foldr Nat.add 0 (take i sizes)) s) = foldr Nat.add 0 (take (S i) sizes)).
        { destruct (Nat.eqb_spec i 0) as [->|Hne].
          - rewrite (Hsnoc 0 s Hs). done.
          - rewrite (Hsnoc i s Hs). apply wrap_small. rewrite <- (Hsnoc i s Hs). specialize (Hsum (S i)). lia. }
        rewrite Hacc. rewrite aset_ok by lia. cbn [mbind outcome_bind wp].
        split; [done|]. split; [by rewrite insert_length|].
        intros k Hk'. destruct (decide (k = S i)) as [->|Hne].
        + rewrite list_lookup_insert by lia. done.
        + rewrite list_lookup_insert_ne by lia. apply Hk. lia. }
    intros [o acc] (_ & Hlo & Hk). cbn [wp]. apply list_eq. intros k.
    destruct (decide (k <= length sizes)) as [Hle|Hgt].
    - rewrite Hk by done. rewrite full_lookup, fmap_seq_lookup by lia. done.
    - rewrite !lookup_ge_None_2; [done| |lia]. rewrite full_length, fmap_length, seq_length. lia.
  Qed.

  (** *** constant-size blocking *)
  Definition const_nb (dim size : nat) : nat := if dim / size =? 0 then 1 else dim / size.
  Definition const_off (dim size : nat) : list nat :=
    (fun b => if b =? const_nb dim size then dim else b * size) <$> seq 0 (S (const_nb dim size)).
  Lemma const_offsets_spec dim size : 0 < size -> dim + 2 < itW -> const_offsets dim size = Ok (const_nb dim size, full (const_off dim size)).
  Proof.
    intros Hs Hd. apply wp_eq. unfold const_offsets, div_. rewrite decide_False by lia. cbn [mbind outcome_bind].
    fold (const_nb dim size). set (nb := const_nb dim size).
    assert (Hnb : 1 <= nb) by (unfold nb, const_nb; destruct (dim / size); simpl; lia).
    assert (Hnb2 : nb = 1 \/ nb * size <= dim).
    { unfold nb, const_nb. destruct (Nat.eqb_spec (dim / size) 0); [by left|right].
      rewrite Nat.mul_comm. apply Nat.mul_div_le. lia. }
    assert (Hnb3 : nb <= S dim) by nia.

    destruct (decide (nb + 1 < itW)) as [Hw|Hw].
    2:{ exfalso. destruct Hnb2 as [Heq|Hle]; [lia|]. nia. }
    assert (Hww : wadd nb 1 = nb + 1) by (by apply wrap_small). rewrite Hww. clear Hww.
    rewrite aset_ok by (unfold new_arr; rewrite replicate_length; lia). cbn [mbind outcome_bind].
    apply wp_bind. eapply wp_mono.
    { apply (wp_for_range (fun i o => length o = nb + 1 /\ forall k, k <= i -> o !! k = Some (Some (k * size)))); [lia| |].
      - split; [rewrite insert_length; unfold new_arr; by rewrite replicate_length|].
        intros k Hk. assert (k = 0) as -> by lia. rewrite list_lookup_insert; [done|].
        unfold new_arr. rewrite replicate_length. lia.
      - intros i o Hi (Hlo & Hk).
        unfold aget. rewrite (Hk i) by lia. cbn [mbind outcome_bind]. rewrite aset_ok by lia. cbn [wp].
        split; [by rewrite insert_length|]. intros k Hk'. destruct (decide (k = S i)) as [->|Hne].
        + replace (i + 1) with (S i) by lia. rewrite list_lookup_insert by lia. do 2 f_equal.
          unfold wadd. rewrite wrap_small; [lia|]. nia.
        + rewrite list_lookup_insert_ne by lia. apply Hk. lia. }
    intros o (Hlo & Hk). rewrite aset_ok by lia. cbn [mbind outcome_bind wp]. f_equal.
    apply list_eq. intros k. unfold const_off. fold nb. rewrite full_lookup.
    destruct (decide (k <= nb)) as [Hle|Hgt].
    - rewrite fmap_seq_lookup by lia. destruct (Nat.eqb_spec k nb) as [->|Hne].
      + rewrite list_lookup_insert by lia. done.
      + rewrite list_lookup_insert_ne by lia. rewrite Hk by lia. done.
    - rewrite !lookup_ge_None_2; [done| |]; rewrite ?insert_length, ?fmap_length, ?seq_length; lia.
  Qed.
  Lemma const_nb_pos dim size : 1 <= const_nb dim size.
  Proof. unfold const_nb. destruct (dim / size); simpl; lia. Qed.
  Lemma const_nb_bound dim size : 0 < size -> const_nb dim size = 1 \/ const_nb dim size * size <= dim.
  Proof.
    intros Hs. unfold const_nb. destruct (Nat.eqb_spec (dim / size) 0); [by left|right].
    rewrite Nat.mul_comm. apply Nat.mul_div_le. lia.
  Qed.
  Lemma const_off_nth dim size b : b <= const_nb dim size ->
    nth b (const_off dim size) 0 = if b =? const_nb dim size then dim else b * size.
  Proof.
    intros Hb. apply nth_lookup_Some. unfold const_off. by rewrite fmap_seq_lookup by lia.
  Qed.
  Lemma const_off_blocking dim size : 0 < size -> blocking (const_off dim size) (const_nb dim size) dim.
  Proof.
    intros Hs. pose proof (const_nb_pos dim size) as Hp. pose proof (const_nb_bound dim size Hs) as Hb.
    split; [unfold const_off; by rewrite fmap_length, seq_length|].
    split; [rewrite const_off_nth by lia; by rewrite (proj2 (Nat.eqb_neq 0 (const_nb dim size))) by lia|].
    split; [rewrite const_off_nth by lia; by rewrite Nat.eqb_refl|].
    intros b Hlt. rewrite !const_off_nth by lia. rewrite (proj2 (Nat.eqb_neq b _)) by lia.
    destruct (Nat.eqb_spec (S b) (const_nb dim size)) as [He|Hne]; [|lia].
    destruct Hb as [Hb|Hb]; [assert (b = 0) as -> by lia; lia|]. rewrite <- He in Hb. lia.
  Qed.
  Lemma const_off_sizes dim size b : 0 < size -> b < const_nb dim size ->
    nth (S b) (const_off dim size) 0 - nth b (const_off dim size) 0 =
    if S b =? const_nb dim size then dim - b * size else size.
  Proof.
    intros Hs Hlt. rewrite !const_off_nth by lia. rewrite (proj2 (Nat.eqb_neq b _)) by lia.
    destruct (Nat.eqb_spec (S b) (const_nb dim size)); lia.
  Qed.
  Lemma const_last dim size : 0 < size -> size <= dim -> size <= dim - (const_nb dim size - 1) * size < 2 * size.
  Proof.
    intros Hs Hd. unfold const_nb. destruct (Nat.eqb_spec (dim / size) 0) as [E|E].
    - apply Nat.div_small_iff in E; lia.
    - pose proof (Nat.div_mod dim size ltac:(lia)) as Hdm. pose proof (Nat.mod_upper_bound dim size ltac:(lia)).
      set (q := dim / size) in *. nia.
  Qed.

  (** *** loops that rewrite every element of an array *)
  Lemma map_loop {A} (body : A -> outcome A) (g : A -> A) (l : list A) :
    (forall a, a ∈ l -> body a = Ok (g a)) ->
    for_range 0 (length l) (fun i l => a ← lget l i; a' ← body a; lset l i a') l = Ok (g <$> l).
  Proof.
    intros Hg. apply wp_eq.
    assert (Hw : wp (for_range 0 (length l) (fun i l => a ← lget l i; a' ← body a; lset l i a') l)
              (fun r => r = (g <$> take (length l) l) ++ drop (length l) l)).
    { apply (wp_for_range (fun i r => r = (g <$> take i l) ++ drop i l)); [lia|done|].
      intros i r Hi ->. destruct (lookup_lt_is_Some_2 l i) as [a Ha]; [lia|].
      assert (Hlen : length (g <$> take i l) = i) by (rewrite fmap_length, take_length; lia).
      rewrite (lget_some _ i a).
      2:{ rewrite lookup_app_r by lia. rewrite Hlen, Nat.sub_diag, lookup_drop, Nat.add_0_r. done. }
      cbn [mbind outcome_bind]. rewrite Hg by (by eapply elem_of_list_lookup_2). cbn [mbind outcome_bind].
      apply wp_lset; [rewrite app_length, Hlen, drop_length; lia|].
      rewrite insert_app_r_alt by lia. rewrite Hlen, Nat.sub_diag.
      rewrite (take_S_r _ _ _ Ha), fmap_app. rewrite (drop_S _ _ _ Ha). simpl. by rewrite <- app_assoc. }
    eapply wp_mono; [exact Hw|]. intros r ->. rewrite take_ge, drop_ge by lia. by rewrite app_nil_r.
  Qed.

  (** *** block ids *)
  Definition block_id (roff : list nat) (nbr : nat) (coff : list nat) (nbc : nat) (e : elem T) : nat :=
    block_of roff nbr (row e) * nbc + block_of coff nbc (col e).
  Definition with_ids (roff : list nat) (nbr : nat) (coff : list nat) (nbc : nat) E : list (elem T) :=
    (fun e => set_blk (block_id roff nbr coff nbc e) e) <$> E.
  Lemma block_id_lt roff nbr coff nbc rows cols e :
    blocking roff nbr rows -> blocking coff nbc cols -> row e < rows -> col e < cols ->
    block_id roff nbr coff nbc e < nbr * nbc.
  Proof.
    intros Hr Hc Hre Hce. destruct (block_of_spec _ _ _ _ Hr Hre) as [H1 _].
    destruct (block_of_spec _ _ _ _ Hc Hce) as [H2 _]. unfold block_id. nia.
  Qed.
  Lemma calculate_block_id_numbered E roff nbr coff nbc rows cols :
    blocking roff nbr rows -> blocking coff nbc cols -> in_range rows cols E ->
    nbr < itW -> nbc < itW -> (forall e, e ∈ E -> block_id roff nbr coff nbc e < itW) ->
    calculate_block_id E (full roff) nbr (full coff) nbc = Ok (with_ids roff nbr coff nbc E).
  Proof.
    intros Hr Hc HE Hw1 Hw2 Hw3. unfold calculate_block_id, with_ids.
    erewrite <- (map_loop (fun e => br ← index_to_blockindex (full roff) nbr (row e);
         bc ← index_to_blockindex (full coff) nbc (col e); Ok (set_blk (wadd (wmul br nbc) bc) e))).
    - apply for_n_ext. intros i s _. destruct (lget s i) as [e| | |]; try done. cbn [mbind outcome_bind].
      destruct (index_to_blockindex (full roff) nbr (row e)) as [br| | |]; try done. cbn [mbind outcome_bind].
      destruct (index_to_blockindex (full coff) nbc (col e)) as [bc| | |]; try done.
    - intros e He. unfold in_range in HE. rewrite Forall_forall in HE. destruct (HE e He) as [Hre Hce].
      rewrite (index_to_blockindex_spec roff nbr rows) by done.
      rewrite (index_to_blockindex_spec coff nbc cols) by done. cbn [mbind outcome_bind]. do 2 f_equal.
      pose proof (Hw3 e He) as Hlt. unfold block_id in *.
      unfold wadd, wmul. rewrite (wrap_small (_ * nbc)) by lia. apply wrap_small. lia.
  Qed.
  Lemma calculate_block_id_spec E roff nbr coff nbc rows cols :
    blocking roff nbr rows -> blocking coff nbc cols -> in_range rows cols E ->
    nbr < itW -> nbc < itW -> nbr * nbc <= itW ->
    calculate_block_id E (full roff) nbr (full coff) nbc = Ok (with_ids roff nbr coff nbc E).
  Proof.
    intros Hr Hc HE Hw1 Hw2 Hw3. eapply calculate_block_id_numbered; try eassumption. intros e He.
    unfold in_range in HE. rewrite Forall_forall in HE. destruct (HE e He) as [Hre Hce].
    pose proof (block_id_lt roff nbr coff nbc rows cols e Hr Hc Hre Hce). lia.
  Qed.
  (** the index type can number the blocks that have elements, counting block row by block row, and
      not all elements lie in the block with the largest number *)
  Definition numbered (roff : list nat) (nbr : nat) (coff : list nat) (nbc : nat) E : Prop :=
    (forall e, e ∈ E -> block_id roff nbr coff nbc e < itW) /\
    (exists e, e ∈ E /\ block_id roff nbr coff nbc e <> itW - 1).
  Lemma numbered_small E roff nbr coff nbc rows cols :
    blocking roff nbr rows -> blocking coff nbc cols -> in_range rows cols E -> E <> [] -> nbr * nbc < itW -> numbered roff nbr coff nbc E.
  Proof.
    intros Hr Hc HE Hne Hw. unfold in_range in HE. rewrite Forall_forall in HE. split.
    - intros e He. destruct (HE e He) as [Hre Hce]. pose proof (block_id_lt roff nbr coff nbc rows cols e Hr Hc Hre Hce). lia.
    - destruct E as [|e E]; [done|]. exists e. split; [left|]. destruct (HE e ltac:(left)) as [Hre Hce].
      pose proof (block_id_lt roff nbr coff nbc rows cols e Hr Hc Hre Hce). lia.
  Qed.
  Lemma block_id_div roff nbr coff nbc cols e : blocking coff nbc cols -> col e < cols ->
    block_id roff nbr coff nbc e / nbc = block_of roff nbr (row e) /\
    block_id roff nbr coff nbc e mod nbc = block_of coff nbc (col e).
  Proof.
    intros Hc Hce. destruct (block_of_spec _ _ _ _ Hc Hce) as [H2 _]. unfold block_id. split.
    - rewrite Nat.add_comm, Nat.div_add by lia. rewrite Nat.div_small by done. lia.
    - rewrite Nat.add_comm, Nat.mod_add by lia. by apply Nat.mod_small.
  Qed.

  (** *** the sorts *)
  Lemma compare_row_lex : compare_row = lex row (bykey (@col T)).
  Proof. done. Qed.
  Lemma compare_col_lex : compare_col = lex col (bykey (@row T)).
  Proof. done. Qed.
  Lemma swo_compare_row : swo (@compare_row T).
  Proof. apply swo_lex, swo_bykey. Qed.
  Lemma swo_compare_col : swo (@compare_col T).
  Proof. apply swo_lex, swo_bykey. Qed.
  Lemma swo_ext {A} (c1 c2 : A -> A -> bool) : (forall x y, c1 x y = c2 x y) -> swo c1 -> swo c2.
  Proof.
    intros He [H1 H2]. split.
    - intros x y. rewrite <- !He. apply H1.
    - intros x y z. rewrite <- !He. apply H2.
  Qed.
  Lemma compare_blocks_lex (x y : elem T) : compare_blocks x y = lex blk (lex row (bykey col)) x y.
  Proof.
    unfold compare_blocks, lex, bykey. destruct (blk x <? blk y), (blk x =? blk y), (row x <? row y), (row x =? row y); done.
  Qed.
  Lemma swo_compare_blocks : swo (@compare_blocks T).
  Proof.
    eapply swo_ext; [intros x y; symmetry; apply compare_blocks_lex|]. apply swo_lex, swo_lex, swo_bykey.
  Qed.
  Lemma compare_widerows_lex w (x y : elem T) : compare_widerows w x y = lex (fun e => row e / w) (lex col (bykey row)) x y.
  Proof.
    unfold compare_widerows, lex, bykey.
    destruct (row x / w <? row y / w), (row x / w =? row y / w), (col x <? col y), (col x =? col y); done.
  Qed.
  Lemma swo_compare_widerows w : swo (@compare_widerows T w).
  Proof.
    eapply swo_ext; [intros x y; symmetry; apply compare_widerows_lex|]. apply swo_lex, swo_lex, swo_bykey.
  Qed.
  Lemma swo_compare_morton : swo (@compare_morton T).
  Proof.
    unfold compare_morton. split; [intros x y | intros x y z]; rewrite ?N.ltb_lt, ?N.ltb_ge; lia.
  Qed.
  Lemma sort_triplets_spec (rm : bool) E : sort_triplets rm E = Ok (isort (if rm then compare_row else compare_col) E).
  Proof. unfold sort_triplets. apply psort_isort. destruct rm; [apply swo_compare_row|apply swo_compare_col]. Qed.
  Lemma sort_triplets_morton_spec E : sort_triplets_morton E = Ok (isort compare_morton E).
  Proof. apply psort_isort, swo_compare_morton. Qed.
  Lemma sort_elements_blocks_spec E : sort_elements_blocks E = Ok (isort compare_blocks E).
  Proof. apply psort_isort, swo_compare_blocks. Qed.
  Lemma sort_triplets_widerows_spec E w : 0 < w -> sort_triplets_widerows E w = Ok (isort (compare_widerows w) E).
  Proof.
    intros Hw. unfold sort_triplets_widerows. rewrite decide_False by lia. apply psort_isort, swo_compare_widerows.
  Qed.

  (** *** sort_triplets_blocks reads past the end, on every input *)
  Lemma stb_scan_oob (l : list (elem T)) (off : arr nat) br o : forall fuel i,
    aget off (br + 1) = Ok o -> Forall (fun e => row e < o) l -> i <= length l -> length l - i < fuel ->
    while_ fuel (fun i => e ← lget l i; o ← aget off (br + 1); Ok (row e <? o)) (fun i => Ok (i + 1)) i = Undef OutOfBounds.
  Proof.
    set (cond := fun i => e ← lget l i; o ← aget off (br + 1); Ok (row e <? o)).
    intros fuel. induction fuel as [|f IH]; intros i Ho Hl Hi Hf; [lia|]. cbn [while_].
    destruct (decide (i < length l)) as [Hlt|Hge].
    - assert (Hc : cond i = Ok true).
      { destruct (lookup_lt_is_Some_2 l i Hlt) as [e He]. unfold cond. rewrite (lget_some _ _ _ He), Ho.
        cbn [mbind outcome_bind]. rewrite Forall_forall in Hl.
        by rewrite (proj2 (Nat.ltb_lt (row e) o)) by (apply Hl; by eapply elem_of_list_lookup_2). }
      rewrite Hc. cbn [mbind outcome_bind]. apply IH; [done|done|lia|lia].
    - assert (cond i = Undef OutOfBounds) as ->; [|done]. unfold cond, lget. by rewrite lookup_ge_None_2 by lia.
  Qed.
  (** rows that all lie below the end of the last block row: the scan of the last
      block row, or an earlier one, runs off the end of the elements *)
  Lemma stb_scan (l : list (elem T)) (off : arr nat) br o : forall fuel i,
    aget off (br + 1) = Ok o -> i <= length l -> length l - i < fuel ->
    (exists i', i' <= length l /\ while_ fuel (fun i => e ← lget l i; o ← aget off (br + 1); Ok (row e <? o)) (fun i => Ok (i + 1)) i = Ok i')
    \/ while_ fuel (fun i => e ← lget l i; o ← aget off (br + 1); Ok (row e <? o)) (fun i => Ok (i + 1)) i = Undef OutOfBounds.
  Proof.
    set (cond := fun i => e ← lget l i; o ← aget off (br + 1); Ok (row e <? o)).
    intros fuel. induction fuel as [|f IH]; intros i Ho Hi Hf; [lia|]. cbn [while_].
    destruct (decide (i < length l)) as [Hlt|Hge].
    - destruct (lookup_lt_is_Some_2 l i Hlt) as [e He].
      assert (Hc : cond i = Ok (row e <? o)).
      { unfold cond. rewrite (lget_some _ _ _ He), Ho. done. }
      rewrite Hc. cbn [mbind outcome_bind]. destruct (row e <? o).
      + cbn [mbind outcome_bind]. apply IH; [done|lia|lia].
      + left. by exists i.
    - right. assert (cond i = Undef OutOfBounds) as ->; [|done]. unfold cond, lget. by rewrite lookup_ge_None_2 by lia.
  Qed.
  Lemma sort_triplets_blocks_oob E roff nbr coff nbc rows :
    blocking roff nbr rows -> 0 < nbr -> Forall (fun e : elem T => row e < rows) E ->
    sort_triplets_blocks E (full roff) nbr coff nbc = Undef OutOfBounds.
  Proof.
    intros Hb Hnb HE. unfold sort_triplets_blocks.
    rewrite (psort_isort true (fun first last : elem T => row first <? row last)).
    2:{ apply (swo_bykey row). }
    cbn [mbind outcome_bind]. set (l := isort _ E).
    assert (Hl : Forall (fun e => row e < rows) l).
    { unfold l. rewrite isort_perm. done. }
    clearbody l. rewrite aset_ok by (unfold new_arr; rewrite replicate_length; lia). cbn [mbind outcome_bind].
    set (bp := <[_ := _]> _). assert (Hbp : length bp = nbr + 1) by (unfold bp, new_arr; by rewrite insert_length, replicate_length).
    clearbody bp.
    match goal with |- (for_range 0 nbr ?b _ ≫= _) = _ => set (body := b) end.
    assert (Hgen : forall k lo st, lo + k = nbr -> 0 < k -> length st.1 = nbr + 1 -> st.2 <= length l ->
              for_n k lo body st = Undef OutOfBounds).
    { induction k as [|k IH]; intros lo [bp' i] Hlo Hk Hlen Hi; [lia|]. cbn [for_n]. cbn [fst snd] in Hlen, Hi.
      unfold body at 2. cbv beta iota.
      pose proof (blocking_get roff nbr rows (lo + 1) Hb ltac:(lia)) as Ho.
      destruct (decide (k = 0)) as [->|Hk0].
      - rewrite stb_scan_oob with (o := rows); try done; [|lia]. rewrite Ho. f_equal.
        destruct Hb as (_ & _ & He & _). replace (lo + 1) with nbr by lia. done.
      - destruct (stb_scan l (full roff) lo _ (S (S (length l))) i Ho Hi ltac:(lia)) as [(i' & Hi' & ->)| ->]; [|done].
        cbn [mbind outcome_bind]. rewrite aset_ok by lia. cbn [mbind outcome_bind]. apply IH; cbn [fst snd].
        + lia.
        + lia.
        + by rewrite insert_length.
        + done. }
    assert (for_range 0 nbr body (bp, 0) = Undef OutOfBounds) as ->; [|done].
    unfold for_range. apply Hgen; cbn [fst snd]; try done; lia.
  Qed.

  (** *** counting *)
  Lemma distinct_snoc_in (K : list nat) k n : k ∈ K -> distinct_count K n -> distinct_count (K ++ [k]) n.
  Proof.
    intros Hk (D & H1 & H2 & H3). exists D. split; [done|]. split; [|done].
    intros k'. rewrite elem_of_app, elem_of_list_singleton, H2. split; [by left|]. intros [?| ->]; done.
  Qed.
  Lemma distinct_snoc_new (K : list nat) k n : k ∉ K -> distinct_count K n -> distinct_count (K ++ [k]) (n + 1).
  Proof.
    intros Hk (D & H1 & H2 & H3). exists (D ++ [k]). split.
    - apply NoDup_app. split; [done|]. split; [|apply NoDup_singleton].
      intros k' Hk' Hs. apply elem_of_list_singleton in Hs as ->. by apply Hk, H2.
    - split; [|rewrite app_length; simpl; lia]. intros k'. rewrite !elem_of_app, H2. done.
  Qed.
  Lemma distinct_le (K : list nat) n : distinct_count K n -> n <= length K.
  Proof.
    intros (D & H1 & H2 & <-). apply submseteq_length, NoDup_submseteq; [done|]. intros k Hk. by apply H2.
  Qed.
  Lemma distinct_unique (K : list nat) n m : distinct_count K n -> distinct_count K m -> n = m.
  Proof.
    intros (D & H1 & H2 & <-) (D' & H1' & H2' & <-). apply Permutation_length, NoDup_Permutation; [done|done|].
    intros k. by rewrite H2, H2'.
  Qed.
  (** both counters follow this pattern *)
  Lemma count_loop (key : elem T -> nat) (new : elem T -> nat -> bool) e0 E :
    E !! 0 = Some e0 -> length E < itW -> ksorted key E ->
    (forall e c, c <= key e -> new e c = negb (c =? key e)) ->
    wp (for_range 0 (length E) (fun i '(count, cur) =>
          e ← lget E i; Ok (if new e cur then (wadd count 1, key e) else (count, cur))) (1, key e0))
       (fun '(n, _) => distinct_count (key <$> E) n).
  Proof.
    intros H0 Hw Hs Hnew.
    assert (Hlen : 1 <= length E) by (apply lookup_lt_Some in H0; lia).
    assert (Hmono : forall i j ei ej, i <= j -> E !! i = Some ei -> E !! j = Some ej -> key ei <= key ej).
    { clear -Hs. induction Hs as [|a l Hs IH Hf]; intros i j ei ej Hij Hi Hj; [done|].
      destruct i as [|i], j as [|j]; simpl in *; simplify_eq; try lia.
      - rewrite Forall_forall in Hf. apply Hf. by eapply elem_of_list_lookup_2.
      - eapply (IH i j); eauto. lia. }
    eapply wp_mono.
    { apply (wp_for_range (fun i '(n, cur) => exists p ep, p = i - 1 /\ E !! p = Some ep /\ cur = key ep /\
         distinct_count (key <$> take (S p) E) n)); [lia| |].
      - exists 0, e0. split; [done|]. split; [done|]. split; [done|].
        rewrite (take_S_r _ _ _ H0). simpl. exists [key e0]. split; [apply NoDup_singleton|]. done.
      - intros i [n cur] Hi (p & ep & -> & Hp & -> & Hd).
        destruct (lookup_lt_is_Some_2 E i) as [e He]; [lia|]. rewrite (lget_some _ _ _ He).
        cbn [mbind outcome_bind]. rewrite Hnew by (eapply (Hmono (i - 1) i); eauto; lia).
        replace (S i - 1) with i by lia.
        destruct (decide (i = 0)) as [->|Hne].
        + simpl in Hp. assert (ep = e) as -> by congruence. rewrite Nat.eqb_refl. simpl.
          exists 0, e. done.
        + replace (S (i - 1)) with i in Hd by lia.
          assert (Htk : key <$> take (S i) E = (key <$> take i E) ++ [key e]).
          { rewrite (take_S_r _ _ _ He), fmap_app. done. }
          pose proof (distinct_le _ _ Hd) as Hle. rewrite fmap_length, take_length in Hle.
          destruct (Nat.eqb_spec (key ep) (key e)) as [Heq|Hneq]; cbn [negb wp].
          * exists i, e. split; [done|]. split; [done|]. split; [done|]. rewrite Htk. apply distinct_snoc_in; [|done].
            apply elem_of_list_fmap. exists ep. split; [done|].
            eapply elem_of_list_lookup_2. rewrite lookup_take; [exact Hp|lia].
          * exists i, e. split; [done|]. split; [done|]. split; [done|]. rewrite Htk.
            assert (wadd n 1 = n + 1) as -> by (apply wrap_small; lia). apply distinct_snoc_new; [|done].
            intros Hin. apply elem_of_list_fmap in Hin as (e' & He1 & He2).
            apply elem_of_list_lookup in He2 as [j Hj]. pose proof (lookup_lt_Some _ _ _ Hj) as Hjl.
            rewrite take_length in Hjl. rewrite lookup_take in Hj by lia.
            pose proof (Hmono j (i - 1) e' ep ltac:(lia) Hj Hp).
            pose proof (Hmono (i - 1) i ep e ltac:(lia) Hp He). lia. }
    intros [n cur] (p & ep & -> & Hp & _ & Hd). replace (S (length E - 1)) with (length E) in Hd by lia.
    by rewrite firstn_all in Hd.
  Qed.
  Lemma count_blocks_spec E : E <> [] -> length E < itW -> ksorted blk E ->
    wp (count_blocks E) (distinct_count (blk <$> E)).
  Proof.
    intros Hne Hw Hs. destruct E as [|e0 E']; [done|]. set (E := e0 :: E') in *. unfold count_blocks.
    rewrite (lget_some E 0 e0) by done. cbn [mbind outcome_bind]. apply wp_bind.
    eapply wp_mono; [apply (count_loop blk (fun e c => c <? blk e) e0 E); try done|].
    - intros e c Hc. destruct (Nat.ltb_spec c (blk e)), (Nat.eqb_spec c (blk e)); simpl; try done; lia.
    - intros [n c] Hn. done.
  Qed.
  Lemma count_nnz_rows_spec E : E <> [] -> length E < itW -> ksorted row E ->
    wp (count_nnz_rows E) (distinct_count (row <$> E)).
  Proof.
    intros Hne Hw Hs. destruct E as [|e0 E']; [done|]. set (E := e0 :: E') in *. unfold count_nnz_rows.
    rewrite (lget_some E 0 e0) by done. cbn [mbind outcome_bind]. apply wp_bind.
    eapply wp_mono; [apply (count_loop row (fun e c => negb (row e =? c)) e0 E); try done|].
    - intros e c Hc. by rewrite Nat.eqb_sym.
    - intros [n c] Hn. done.
  Qed.
  (** without any order, count_nnz_rows counts runs of equal rows *)
  Lemma runs_snoc K k k' : runs (K ++ [k; k']) = runs (K ++ [k]) + (if k =? k' then 0 else 1).
  Proof.
    induction K as [|a K IH]; [simpl; lia|]. destruct K as [|b K]; [simpl; lia|].
    cbn [app] in *. cbn [runs] in *. lia.
  Qed.
  Lemma runs_le K : runs K <= length K.
  Proof. induction K as [|a K IH]; [done|]. destruct K; simpl in *; [lia|]. destruct (a =? n); lia. Qed.
  Lemma count_nnz_rows_runs E : E <> [] -> length E < itW -> count_nnz_rows E = Ok (runs (row <$> E)).
  Proof.
    intros Hne Hw. apply wp_eq. destruct E as [|e0 E']; [done|]. set (E := e0 :: E') in *. unfold count_nnz_rows.
    assert (H0 : E !! 0 = Some e0) by done. assert (Hlen : 1 <= length E) by (simpl; lia). clearbody E.
    rewrite (lget_some E 0 e0) by done. cbn [mbind outcome_bind]. apply wp_bind. eapply wp_mono.
    { apply (wp_for_range (fun i '(n, cur) => exists p ep, p = i - 1 /\ E !! p = Some ep /\ cur = row ep /\
         n = runs (row <$> take (S p) E))); [lia| |].
      - exists 0, e0. split; [done|]. split; [done|]. split; [done|]. rewrite (take_S_r _ _ _ H0). done.
      - intros i [n cur] Hi (p & ep & -> & Hp & -> & ->).
        destruct (lookup_lt_is_Some_2 E i) as [e He]; [lia|]. rewrite (lget_some _ _ _ He).
        cbn [mbind outcome_bind]. replace (S i - 1) with i by lia.
        destruct (decide (i = 0)) as [->|Hne'].
        + simpl in Hp. assert (ep = e) as -> by congruence. rewrite Nat.eqb_refl. simpl. exists 0, e. done.
        + replace (S (i - 1)) with i by lia.
          assert (Htk : runs (row <$> take (S i) E) = runs (row <$> take i E) + (if row ep =? row e then 0 else 1)).
          { rewrite (take_S_r _ _ _ He). assert (take i E = take (i - 1) E ++ [ep]) as ->.
            { replace i with (S (i - 1)) at 1 by lia. by rewrite (take_S_r _ _ _ Hp). }
            rewrite <- app_assoc, !fmap_app. apply runs_snoc. }
          assert (Hle : runs (row <$> take i E) <= i).
          { etrans; [apply runs_le|]. rewrite fmap_length, take_length. lia. }
          rewrite Nat.eqb_sym. destruct (Nat.eqb_spec (row ep) (row e)) as [Heq|Hneq]; cbn [negb wp]; exists i, e.
          * rewrite Htk. split; [done|]. split; [done|]. split; [done|lia].
          * rewrite Htk. split; [done|]. split; [done|]. split; [done|]. apply wrap_small. lia. }
    intros [n cur] (p & ep & -> & _ & _ & ->). cbn [wp]. replace (S (length E - 1)) with (length E) by lia.
    by rewrite firstn_all.
  Qed.
  Lemma count_empty : count_blocks (@nil (elem T)) = Undef OutOfBounds /\ count_nnz_rows (@nil (elem T)) = Undef OutOfBounds.
  Proof. done. Qed.
End proofs.
