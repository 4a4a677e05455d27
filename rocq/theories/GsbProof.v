(** GsbProof.v: proofs about Gsb.v *)
From Verif Require Export Gsb KernelsProof UtilsProof Performs.

(** sum of f over a .. a+n-1 *)
Fixpoint sumf (f : nat -> nat) (a n : nat) : nat :=
  match n with O => 0 | S n' => f a + sumf f (S a) n' end.
Definition sum_between (f : nat -> nat) (lo hi : nat) : nat := sumf f lo (hi - lo).
Lemma sumf_app f a n m : sumf f a (n + m) = sumf f a n + sumf f (a + n) m.
Proof.
  revert a. induction n as [|n IH]; intros a; simpl; [by rewrite Nat.add_0_r|].
  rewrite IH. replace (a + S n) with (S a + n) by lia. lia.
Qed.
Lemma sum_between_split f a c e : a <= c -> c <= e -> sum_between f a e = sum_between f a c + sum_between f c e.
Proof.
  intros H1 H2. unfold sum_between. replace (e - a) with ((c - a) + (e - c)) by lia. rewrite sumf_app.
  by replace (a + (c - a)) with c by lia.
Qed.
Lemma sum_between_S f a e : a <= e -> sum_between f a (S e) = sum_between f a e + f e.
Proof.
  intros H1. rewrite (sum_between_split f a e (S e)) by lia. f_equal. unfold sum_between.
  replace (S e - e) with 1 by lia. simpl. lia.
Qed.
Lemma sum_between_empty f a e : e <= a -> sum_between f a e = 0.
Proof. intros H1. unfold sum_between. by replace (e - a) with 0 by lia. Qed.
Lemma sum_between_mono f a a' e e' : a' <= a -> e <= e' -> sum_between f a e <= sum_between f a' e'.
Proof.
  intros H1 H2. destruct (decide (a <= e)).
  - rewrite (sum_between_split f a' a e'), (sum_between_split f a e e') by lia. lia.
  - rewrite sum_between_empty by lia. lia.
Qed.

(** consecutive elements *)
Definition consecutive (l : list nat) (i c c' : nat) : Prop := l !! i = Some c /\ l !! S i = Some c'.
Lemma consecutive_snoc (l : list nat) a i c c' :
  consecutive (l ++ [a]) i c c' -> consecutive l i c c' \/ (S i = length l /\ last l = Some c /\ c' = a).
Proof.
  intros [H1 H2]. pose proof (lookup_lt_Some _ _ _ H2) as Hl. rewrite app_length in Hl. simpl in Hl.
  destruct (decide (S i < length l)).
  - left. rewrite lookup_app_l in H1 by lia. rewrite lookup_app_l in H2 by lia. done.
  - right. assert (S i = length l) as Hi by lia. split; [done|].
    rewrite lookup_app_l in H1 by lia. rewrite lookup_app_r in H2 by lia.
    replace (S i - length l) with 0 in H2 by lia. simpl in H2. injection H2 as <-.
    split; [|done]. rewrite last_lookup. by replace (pred (length l)) with i by lia.
Qed.

Section partition.
  Context {T : Type} `{Widths}.
  Implicit Types A : blocked T.

  (** the facts proved of a partition of blocks start .. end-1 with loads f *)
  Record partition_spec (f : nat -> nat) (thr start end_ : nat) (chunks : list nat) : Prop := {
    ps_head : chunks !! 0 = Some start;
    ps_last : last chunks = Some end_;
    ps_len : 2 <= length chunks <= end_ - start + 2;
    ps_mono : forall i c c', consecutive chunks i c c' -> c <= c';
    ps_inner : forall i c c', consecutive chunks i c c' -> S (S i) < length chunks -> sum_between f (S c) c' <= thr;
    ps_end : forall i c c', consecutive chunks i c c' -> S (S i) = length chunks -> sum_between f (S c) (c' - 1) <= thr;
    ps_lower : forall i c c', consecutive chunks i c c' -> S (S i) < length chunks ->
       thr < sum_between f (if i =? 0 then c else S c) (S c') /\ c' < end_ - 1 }.

  Lemma partition_blockrow_spec A workers start end_ (f : nat -> nat) thr :
    min_nnz (bk_nnz A) workers = Ok thr -> start <= end_ -> end_ < itW ->
    (forall k, start <= k < end_ -> bk_nonzeros A k = Ok (f k)) -> sum_between f start end_ < itW ->
    exists chunks, partition_blockrow A workers start end_ = Ok (chunks, length chunks) /\ partition_spec f thr start end_ chunks.
  Proof.
    intros Hthr Hle Hw Hf Hsum.
    pose (J := fun (k : nat) (st : list nat * nat) => let '(chunks, nnz) := st in
      exists c, chunks !! 0 = Some start /\ last chunks = Some c /\ start <= c <= k /\
        1 <= length chunks <= k - start + 1 /\ (length chunks = 1 -> c = start) /\ (1 < length chunks -> c < k /\ c < end_ - 1) /\
        let s := if length chunks =? 1 then start else S c in
        nnz = sum_between f s k /\ sum_between f s (Nat.min k (end_ - 1)) <= thr /\
        (forall i c c', consecutive chunks i c c' -> c <= c') /\
        (forall i c c', consecutive chunks i c c' -> sum_between f (S c) c' <= thr) /\
        (forall i c c', consecutive chunks i c c' -> thr < sum_between f (if i =? 0 then c else S c) (S c') /\ c' < end_ - 1)).
    unfold partition_blockrow. rewrite Hthr. cbn [mbind outcome_bind].
    match goal with |- context [for_range start end_ ?b ?i] => assert (Hloop : wp (for_range start end_ b i) (J end_)) end.
    { apply wp_for_range; [done| |].
      - exists start. cbn [length]. split; [done|]. split; [done|]. split; [lia|]. split; [lia|]. split; [done|].
        split; [lia|]. cbn [Nat.eqb]. rewrite !sum_between_empty by lia. split; [done|]. split; [lia|].
        split; [|split]; intros i c c' [_ Hc]; destruct i; simpl in Hc; done.
      - intros k [chunks nnz] Hk (c & Hh & Hl & Hc & Hlen & H1 & H2 & Hnnz & Hthr' & Hm & Hi & Hlo).
        rewrite Hf by lia. cbn [mbind outcome_bind].
        set (s := if length chunks =? 1 then start else S c) in *.
        assert (Hs : start <= s <= k).
        { unfold s. destruct (Nat.eqb_spec (length chunks) 1); [lia|]. destruct H2; lia. }
        assert (Hwadd : wadd nnz (f k) = sum_between f s (S k)).
        { rewrite sum_between_S, <- Hnnz by lia. apply wrap_small. rewrite Hnnz, <- sum_between_S by lia.
          eapply Nat.le_lt_trans; [apply (sum_between_mono f s start (S k) end_); lia|done]. }
        rewrite Hwadd. rewrite wsub_small by lia.
        destruct (Nat.ltb_spec thr (sum_between f s (S k))) as [Hgt|Hle2]; cbn [andb].
        + destruct (Nat.ltb_spec k (end_ - 1)) as [Hke|Hke]; cbn [wp].
          * exists k. rewrite app_length. cbn [length]. split; [by apply lookup_app_l_Some|].
            split; [by rewrite last_snoc|]. split; [lia|]. split; [lia|]. split; [lia|]. split; [lia|].
            rewrite (proj2 (Nat.eqb_neq (length chunks + 1) 1)) by lia.
            rewrite !sum_between_empty by lia. split; [done|]. split; [lia|].
            rewrite Nat.min_l in Hthr' by lia.
            split; [|split]; intros i d d' Hd; apply consecutive_snoc in Hd as [Hd|(Hd1 & Hd2 & ->)].
            -- by eapply Hm.
            -- rewrite Hl in Hd2. injection Hd2 as <-. lia.
            -- by eapply Hi.
            -- rewrite Hl in Hd2. injection Hd2 as <-. etrans; [|exact Hthr'].
               apply sum_between_mono; [|lia]. unfold s. destruct (Nat.eqb_spec (length chunks) 1); lia.
            -- by eapply Hlo.
            -- rewrite Hl in Hd2. injection Hd2 as <-. split; [|done]. eapply Nat.lt_le_trans; [exact Hgt|].
               apply sum_between_mono; [|lia]. unfold s. rewrite <- Hd1.
               destruct (Nat.eqb_spec (S i) 1), (Nat.eqb_spec i 0); try lia.
          * assert (k = end_ - 1) as Hke' by lia.
            exists c. split; [done|]. split; [done|]. split; [lia|]. split; [lia|]. split; [done|]. split; [lia|].
            fold s. split; [done|]. split; [|done]. rewrite Nat.min_r by lia. rewrite Nat.min_l in Hthr' by lia. by rewrite <- Hke'.
        + exists c. split; [done|]. split; [done|]. split; [lia|]. split; [lia|]. split; [done|]. split; [lia|].
          fold s. split; [done|]. split; [|done]. etrans; [|exact Hle2]. apply sum_between_mono; lia. }
    apply wp_exists in Hloop as ([chunks nnz] & -> & (c & Hh & Hl & Hc & Hlen & H1 & H2 & Hnnz & Hthr' & Hm & Hi & Hlo)).
    cbn [mbind outcome_bind]. eexists. split; [reflexivity|].
    assert (Hlen' : length (chunks ++ [end_]) = S (length chunks)) by (rewrite app_length; simpl; lia).
    split.
    - by apply lookup_app_l_Some.
    - apply last_snoc.
    - lia.
    - intros i d d' Hd. apply consecutive_snoc in Hd as [Hd|(Hd1 & Hd2 & ->)]; [by eapply Hm|].
      rewrite Hl in Hd2. injection Hd2 as <-. lia.
    - intros i d d' Hd HL. apply consecutive_snoc in Hd as [Hd|(Hd1 & Hd2 & ->)]; [by eapply Hi|]. lia.
    - intros i d d' Hd HL. apply consecutive_snoc in Hd as [[_ Hd]|(Hd1 & Hd2 & ->)].
      + apply lookup_lt_Some in Hd. lia.
      + rewrite Hl in Hd2. injection Hd2 as <-. etrans; [|exact Hthr'].
        destruct (Nat.eqb_spec (length chunks) 1); apply sum_between_mono; lia.
    - intros i d d' Hd HL. apply consecutive_snoc in Hd as [Hd|(Hd1 & Hd2 & ->)]; [by eapply Hlo|]. lia.
  Qed.

  (** the number of chunks: every chunk but the last is worth more than the threshold *)
  Lemma partition_spec_count f thr start end_ chunks :
    partition_spec f thr start end_ chunks -> (length chunks - 2) * S thr <= sum_between f start end_.
  Proof.
    intros Hp. pose proof (ps_len _ _ _ _ _ Hp) as Hlen.
    assert (Hi : forall i c', S i < length chunks - 1 -> chunks !! S i = Some c' ->
              S i * S thr <= sum_between f start (S c') /\ start <= c').
    { induction i as [|i IH]; intros c' Hi Hc'.
      - assert (Hcons : consecutive chunks 0 start c') by (split; [apply (ps_head _ _ _ _ _ Hp)|done]).
        destruct (ps_lower _ _ _ _ _ Hp _ _ _ Hcons) as [Hlo _]; [lia|]. simpl in Hlo.
        pose proof (ps_mono _ _ _ _ _ Hp _ _ _ Hcons). split; [|done]. lia.
      - destruct (lookup_lt_is_Some_2 chunks (S i)) as [c Hc]; [lia|].
        destruct (IH c) as [IH1 IH2]; [lia|done|].
        assert (Hcons : consecutive chunks (S i) c c') by (by split).
        destruct (ps_lower _ _ _ _ _ Hp _ _ _ Hcons) as [Hlo _]; [lia|]. cbn [Nat.eqb] in Hlo.
        pose proof (ps_mono _ _ _ _ _ Hp _ _ _ Hcons) as Hcc. split; [|lia].
        rewrite (sum_between_split f start (S c) (S c')) by lia. lia. }
    destruct (decide (length chunks = 2)) as [Heq|Hne]; [rewrite Heq; simpl; lia|].
    destruct (lookup_lt_is_Some_2 chunks (S (length chunks - 3))) as [c Hc]; [lia|].
    destruct (Hi (length chunks - 3) c) as [Hi1 Hi2]; [lia|done|].
    replace (length chunks - 2) with (S (length chunks - 3)) by lia. etrans; [exact Hi1|].
    destruct (lookup_lt_is_Some_2 chunks (length chunks - 3)) as [c0 Hc0]; [lia|].
    destruct (ps_lower _ _ _ _ _ Hp (length chunks - 3) c0 c) as [_ Hlt]; [by split|lia|].
    apply sum_between_mono; lia.
  Qed.
End partition.

(** the value a row gets from the chunked kernel: the chunks are added left to
    right inside a leaf and pairwise at the inner nodes of the recursion *)
Section chunk_val.
  Context {T : Type} `{Scalar T}.
  Fixpoint chunk_val (fuel : nat) (g : nat -> T -> T) (chunks : list nat) (first last : nat) (y : T) : T :=
    match fuel with
    | O => y
    | S f =>
        if last - first =? 1 then
          let lo := nth first chunks 0 in
          fold_left (fun y k => g k y) (seq lo (nth last chunks 0 - lo)) y
        else
          let middle := (first + last) / 2 in
          sadd (chunk_val f g chunks first middle y) (chunk_val f g chunks middle last s0)
    end.
  (** when adding is exact, the tree of sums is the plain sum *)
  Lemma fold_add_exact (one : T) (SR : semi_ring_theory s0 one sadd smul (@eq T)) (g : nat -> T -> T) l y :
    (forall k y, g k y = sadd y (g k s0)) ->
    fold_left (fun y k => g k y) l y = sadd y (fold_left (fun y k => g k y) l s0).
  Proof.
    destruct SR as [A0 AC AA _ _ _ _ _].
    intros Hg. revert y. induction l as [|k l IH]; intros y; cbn [fold_left].
    - by rewrite AC, A0.
    - rewrite IH, (IH (g k s0)), Hg. by rewrite AA.
  Qed.
  Lemma chunk_val_exact (one : T) (SR : semi_ring_theory s0 one sadd smul (@eq T)) (g : nat -> T -> T) chunks fuel :
    (forall k y, g k y = sadd y (g k s0)) ->
    (forall i, S i < length chunks -> nth i chunks 0 <= nth (S i) chunks 0) ->
    forall first last y, first < last -> last < length chunks -> last - first <= fuel ->
    chunk_val fuel g chunks first last y =
      fold_left (fun y k => g k y) (seq (nth first chunks 0) (nth last chunks 0 - nth first chunks 0)) y.
  Proof.
    intros Hg Hm.
    assert (Hmono : forall j i, i <= j -> j < length chunks -> nth i chunks 0 <= nth j chunks 0).
    { induction j as [|j IH]; intros i Hi Hj; [by replace i with 0 by lia|].
      destruct (decide (i = S j)) as [->|]; [done|]. etrans; [apply (IH i); lia|apply Hm; lia]. }
    induction fuel as [|f IH]; intros first last y Hfl Hl Hf; [lia|]. cbn [chunk_val].
    destruct (Nat.eqb_spec (last - first) 1) as [|Hne]; [done|]. cbv zeta.
    assert (Hmid : first < (first + last) / 2 < last).
    { split; [apply Nat.div_le_lower_bound; lia|apply Nat.div_lt_upper_bound; lia]. }
    generalize dependent ((first + last) / 2). intros mid Hmid.
    rewrite !IH by lia.
    pose proof (Hmono mid first ltac:(lia) ltac:(lia)). pose proof (Hmono last mid ltac:(lia) ltac:(lia)).
    replace (nth last chunks 0 - nth first chunks 0) with ((nth mid chunks 0 - nth first chunks 0) + (nth last chunks 0 - nth mid chunks 0)) by lia.
    rewrite seq_app, fold_left_app. replace (nth first chunks 0 + (nth mid chunks 0 - nth first chunks 0)) with (nth mid chunks 0) by lia.
    symmetry. by apply (fold_add_exact one SR).
  Qed.
End chunk_val.

Section kernels.
  Context {T : Type} `{Scalar T} `{Widths}.
  Implicit Types (A : blocked T) (x : list T).

  (** block k, started on n cells of any buffer, does g *)
  Definition block_does A x (k n : nat) (g : nat -> T -> T) : Prop :=
    forall (b : buf) (o : nat), performs (one_block A x b o k) b o n (fun _ => False) g.

  Lemma performs_blocks A x lo hi n (G : nat -> nat -> T -> T) (b : buf) o (π : buf -> Prop) :
    (forall k, lo <= k < hi -> block_does A x k n (G k)) ->
    performs (pfor_range lo hi (fun k => one_block A x b o k)) b o n π
      (fun r y => fold_left (fun y k => G k r y) (seq lo (hi - lo)) y).
  Proof.
    intros HG. unfold pfor_range. apply performs_pfor. intros k Hk.
    eapply performs_priv; [|apply HG; lia]. by intros ? [].
  Qed.

  Lemma performs_spmv_chunk A x chunks n (G : nat -> nat -> T -> T) start end_ :
    (forall k, start <= k < end_ -> block_does A x k n (G k)) ->
    (forall i c, chunks !! i = Some c -> start <= c <= end_) -> 2 * length chunks < itW ->
    forall fuel first last (b : buf) o (π : buf), first < last -> last < length chunks -> last - first <= fuel -> ~ below π b ->
    performs (spmv_chunk fuel A x chunks first last n b o π) b o n (below π)
      (fun r y => chunk_val fuel (fun k => G k r) chunks first last y).
  Proof.
    intros HG Hc Hw. induction fuel as [|f IH]; intros first last b o π Hfl Hl Hf Hb; [lia|].
    cbn [spmv_chunk]. rewrite wsub_small by lia. cbn [chunk_val].
    destruct (Nat.eqb_spec (last - first) 1) as [|Hne].
    - assert (H1 : lget chunks first = Ok (nth first chunks 0)) by (apply lget_some, nth_some; lia).
      assert (H2 : lget chunks last = Ok (nth last chunks 0)) by (apply lget_some, nth_some; lia).
      eapply performs_lift; [exact H1|]. eapply performs_lift; [exact H2|].
      apply (performs_blocks A x _ _ n G).
      pose proof (Hc first _ (nth_some chunks first 0 ltac:(lia))).
      pose proof (Hc last _ (nth_some chunks last 0 ltac:(lia))).
      intros k Hk. apply HG. lia.
    - cbv zeta. assert (wadd first last = first + last) as -> by (apply wrap_small; lia).
      assert (Hmid : first < (first + last) / 2 < last).
      { split; [apply Nat.div_le_lower_bound; lia|apply Nat.div_lt_upper_bound; lia]. }
      generalize dependent ((first + last) / 2). intros mid Hmid.
      apply (performs_temp _ _ b o n π (fun r y => chunk_val f (fun k => G k r) chunks first mid y)
                                  (fun r y => chunk_val f (fun k => G k r) chunks mid last y)); [| |done].
      + apply IH; try lia. intros Hx. apply Hb. by eapply below_snoc.
      + apply IH; try lia. by apply below_not_self.
  Qed.

  (** a blocked matrix whose k-th block lies in block row brs[k] and does G k *)
  Section blocked.
    Context (A : blocked T) (x : list T) (roff : list nat) (nbr rows : nat) (brs : list nat) (G : nat -> nat -> T -> T).
    Context (Hoff : blocking roff nbr rows) (Hbr : bk_blockrows A = nbr) (Hptr : bk_ptr A = full (ptrs brs nbr)).
    Context (Hroff : forall bi, bi <= nbr -> bk_roff A bi = Ok (nth bi roff 0)).
    Context (Hsorted : ksorted (fun n => n) brs) (Hbrs : Forall (fun bi => bi < nbr) brs) (Hrows : rows < itW).
    Context (HG : forall k bi, brs !! k = Some bi ->
       block_does A x k (nth (S bi) roff 0 - nth bi roff 0) (fun r => G k (nth bi roff 0 + r))).

    Definition row_blocks (i : nat) : list nat :=
      let bi := block_of roff nbr i in seq (cntlt brs bi) (cnteq brs bi).

    Lemma brs_between bi k : cntlt brs bi <= k < cntlt brs (S bi) -> brs !! k = Some bi.
    Proof.
      clear HG Hroff Hoff Hbrs Hrows Hptr Hbr G x A roff. intros Hk. rewrite cntlt_S in Hk.
      assert (Hlk : slice (cntlt brs bi) (cnteq brs bi) brs = bfilter (has (fun n => n) bi) brs).
      { pose proof (sorted_slice (fun n => n) brs bi Hsorted) as Hs. rewrite list_fmap_id in Hs.
        rewrite cntlt_S in Hs. by replace (cntlt brs bi + cnteq brs bi - cntlt brs bi) with (cnteq brs bi) in Hs by lia. }
      assert (Hlt : k - cntlt brs bi < cnteq brs bi) by lia.
      pose proof (slice_lookup (cntlt brs bi) (cnteq brs bi) brs (k - cntlt brs bi) Hlt) as Hsl.
      replace (cntlt brs bi + (k - cntlt brs bi)) with k in Hsl by lia. rewrite Hlk in Hsl.
      destruct (bfilter (has (fun n => n) bi) brs !! (k - cntlt brs bi)) as [v|] eqn:Ev.
      - pose proof (filter_has_map (fun n => n) bi brs) as Hf. rewrite Forall_lookup in Hf.
        rewrite <- Hsl. f_equal. by eapply (Hf _ _ Ev).
      - apply lookup_ge_None_1 in Ev. unfold cnteq in Hlt. unfold has in Ev. lia.
    Qed.

    Lemma parfor_rows (body : nat -> prog T unit) (b : buf) (π : nat -> buf -> Prop) (g : nat -> T -> T) :
      (forall bi, bi < nbr -> performs (body bi) b (0 + nth bi roff 0) (nth (S bi) roff 0 - nth bi roff 0) (π bi) (fun r => g (nth bi roff 0 + r))) ->
      (forall i j z, i < nbr -> j < nbr -> i <> j -> π i z -> π j z -> False) -> (forall i, i < nbr -> ~ π i b) ->
      performs (parfor nbr 0 body) b 0 rows (fun z => exists i, i < nbr /\ π i z) g.
    Proof.
      clear HG Hroff Hsorted Hbrs Hrows Hptr Hbr G x A. intros Hb Hd Hn. pose proof (performs_parfor (fun i => nth i roff 0) body b 0 π nbr 0 g) as Hp.
      destruct Hoff as (Hl & Hst & Hend & Hmono). cbv beta in Hp. rewrite Hst in Hp. cbn [Nat.add] in Hp.
      rewrite Hend, Nat.sub_0_r in Hp. eapply performs_priv; [|apply Hp].
      - intros z (i & Hi & Hz). exists i. split; [lia|done].
      - intros i Hi. apply Hmono. lia.
      - intros i Hi. eapply performs_ext; [|apply Hb; lia]. intros k y Hk. cbv beta. by rewrite Nat.sub_0_r.
      - intros i j z Hi Hj. apply Hd; lia.
      - intros i Hi. apply Hn. lia.
    Qed.
    Lemma block_of_at bi r : bi < nbr -> r < nth (S bi) roff 0 - nth bi roff 0 -> block_of roff nbr (nth bi roff 0 + r) = bi.
    Proof. clear HG Hroff Hsorted Hbrs Hrows Hptr Hbr G x A. intros Hbi Hr. eapply block_of_unique; [exact Hoff|done|]. unfold in_block. lia. Qed.

    Lemma performs_spmv_balanced (b : buf) :
      performs (spmv_balanced A x b) b 0 rows (fun _ => False) (fun i y => fold_left (fun y k => G k i y) (row_blocks i) y).
    Proof.
      unfold spmv_balanced. rewrite Hbr. eapply performs_priv; [|apply (parfor_rows _ b (fun _ _ => False))].
      - by intros z (i & _ & []).
      - intros bi Hbi. eapply performs_lift; [rewrite Hptr; apply ptrs_get; lia|].
        eapply performs_lift; [rewrite Hptr; apply ptrs_get; lia|].
        eapply performs_lift; [apply Hroff; lia|].
        eapply performs_ext; [|apply (performs_blocks A x _ _ _ (fun k r => G k (nth bi roff 0 + r)))].
        + intros r y Hr. cbv beta. unfold row_blocks. rewrite block_of_at by done.
          replace (bi + 1) with (S bi) by lia. rewrite cntlt_S.
          by replace (cntlt brs bi + cnteq brs bi - cntlt brs bi) with (cnteq brs bi) by lia.
        + intros k Hk. replace (bi + 1) with (S bi) in Hk by lia. by apply HG, brs_between.
      - done.
      - by intros i _ [].
    Qed.

    (** partitions that tile every block row *)
    Definition tiles (chunks : list nat) (start end_ : nat) : Prop :=
      2 <= length chunks /\ nth 0 chunks 0 = start /\ nth (length chunks - 1) chunks 0 = end_ /\
      forall i, S i < length chunks -> nth i chunks 0 <= nth (S i) chunks 0.
    Definition good_partition (parts : list (list nat)) : Prop :=
      length parts = nbr /\
      forall bi chunks, parts !! bi = Some chunks ->
        tiles chunks (cntlt brs bi) (cntlt brs (S bi)) /\ 2 * length chunks < itW.
    Definition row_chunks (parts : list (list nat)) (i : nat) : list nat := nth (block_of roff nbr i) parts [].

    Lemma tiles_range chunks start end_ i c : tiles chunks start end_ -> chunks !! i = Some c -> start <= c <= end_.
    Proof.
      clear HG Hroff Hoff Hsorted Hbrs Hrows Hptr Hbr G x A roff.
      intros (Hlen & Hst & Hend & Hm) Hc.
      assert (Hmono : forall j i, i <= j -> j < length chunks -> nth i chunks 0 <= nth j chunks 0).
      { induction j as [|j IH]; intros i' Hi Hj; [by replace i' with 0 by lia|].
        destruct (decide (i' = S j)) as [->|]; [done|]. etrans; [apply (IH i'); lia|apply Hm; lia]. }
      pose proof (lookup_lt_Some _ _ _ Hc). rewrite (nth_some chunks i 0) in Hc by done. injection Hc as <-.
      rewrite <- Hst, <- Hend. split; apply Hmono; lia.
    Qed.
    Lemma temp_name_disj (b : buf) i j z : i <> j -> below (temp_name b i) z -> below (temp_name b j) z -> False.
    Proof.
      unfold temp_name. intros Hij [u ->] [w Hw]. rewrite <- !app_assoc in Hw. apply app_inv_head in Hw.
      revert j Hij Hw. induction i as [|i IH]; intros [|j] Hij Hw; cbn in Hw; try done.
      injection Hw as Hw. apply (IH j); [lia|done].
    Qed.
    Lemma temp_name_self (b : buf) i : ~ below (temp_name b i) b.
    Proof. unfold temp_name. apply below_not_self. by destruct i. Qed.

    Lemma performs_spmv_unbalanced (parts : list (list nat)) (b : buf) :
      good_partition parts ->
      performs (spmv_blocked A parts false x b) b 0 rows (fun z => exists i, i < nbr /\ below (temp_name b i) z)
        (fun i y => let chunks := row_chunks parts i in
                    chunk_val (length chunks) (fun k => G k i) chunks 0 (length chunks - 1) y).
    Proof.
      intros [Hlen Hparts]. unfold spmv_blocked. rewrite Hbr. apply (parfor_rows _ b (fun i => below (temp_name b i))).
      - intros bi Hbi. destruct (lookup_lt_is_Some_2 parts bi) as [chunks Hch]; [lia|].
        destruct (Hparts _ _ Hch) as [Ht Hw]. pose proof Ht as (Hcl & Hst & Hend & Hm).
        eapply performs_lift; [apply lget_some, Hch|]. cbv zeta.
        rewrite wrap_small by lia.
        eapply performs_lift; [apply Hroff; lia|]. eapply performs_lift; [apply Hroff; lia|].
        pose proof (blocking_le _ _ _ (S bi) Hoff ltac:(lia)).
        pose proof (blocking_mono _ _ _ bi (S bi) Hoff ltac:(lia) ltac:(lia)).
        replace (bi + 1) with (S bi) by lia.
        rewrite wsub_small by lia.
        eapply performs_ext; [|eapply (performs_spmv_chunk A x chunks _ (fun k r => G k (nth bi roff 0 + r)) (cntlt brs bi) (cntlt brs (S bi)))].
        + intros r y Hr. cbv beta. unfold row_chunks. rewrite block_of_at by done.
          assert (nth bi parts [] = chunks) as ->.
          { rewrite (nth_some parts bi []) in Hch by lia. by injection Hch. }
          replace (S (length chunks - 1)) with (length chunks) by lia. done.
        + intros k Hk. by apply HG, brs_between.
        + intros i c Hc. by eapply tiles_range.
        + done.
        + lia.
        + lia.
        + lia.
        + apply temp_name_self.
      - intros i j z _ _ Hij. by apply temp_name_disj.
      - intros i _. apply temp_name_self.
    Qed.

    (** partition_init produces a good partition *)
    Lemma min_nnz_ok nnz workers : 0 < workers -> 2 * workers < itW -> nnz < itW -> min_nnz nnz workers = Ok (nnz / (2 * workers)).
    Proof.
      clear HG Hroff Hoff Hsorted Hbrs Hrows Hptr Hbr G x A roff. intros Hwk Hwk2 Hn. unfold min_nnz, wmul. rewrite !wrap_small by lia. rewrite div_ok by lia. by rewrite Nat.mul_1_l.
    Qed.
    Lemma partition_spec_tiles f thr start end_ chunks : partition_spec f thr start end_ chunks -> tiles chunks start end_.
    Proof.
      clear HG Hroff Hoff Hsorted Hbrs Hrows Hptr Hbr G x A roff. intros Hp. pose proof (ps_len _ _ _ _ _ Hp) as Hlen. split; [lia|].
      split; [by apply nth_lookup_Some, (ps_head _ _ _ _ _ Hp)|]. split.
      - apply nth_lookup_Some. rewrite <- (ps_last _ _ _ _ _ Hp), last_lookup. f_equal. lia.
      - intros i Hi. apply (ps_mono _ _ _ _ _ Hp i). split; apply nth_some; lia.
    Qed.
    Lemma partition_init_spec workers (f : nat -> nat) thr :
      min_nnz (bk_nnz A) workers = Ok thr ->
      (forall k, k < length brs -> bk_nonzeros A k = Ok (f k)) -> sum_between f 0 (length brs) < itW ->
      2 * (length brs + 2) < itW ->
      exists parts, partition_init A workers = Ok parts /\ good_partition parts /\
        forall bi chunks, parts !! bi = Some chunks -> partition_spec f thr (cntlt brs bi) (cntlt brs (S bi)) chunks.
    Proof.
      clear HG Hroff Hoff Hsorted Hbrs Hrows roff G x. intros Hthr Hf Hsum Hw.
      pose (J := fun (i : nat) (parts : list (list nat)) => length parts = i /\
        forall bi chunks, parts !! bi = Some chunks -> partition_spec f thr (cntlt brs bi) (cntlt brs (S bi)) chunks).
      unfold partition_init. rewrite Hbr.
      match goal with |- context [for_range 0 nbr ?b ?i] => assert (Hloop : wp (for_range 0 nbr b i) (J nbr)) end.
      { apply wp_for_range; [lia|by split|]. intros bi parts Hbi [HJ1 HJ2].
        rewrite Hptr, !ptrs_get by lia. cbn [mbind outcome_bind]. replace (bi + 1) with (S bi) by lia.
        pose proof (cntlt_mono brs bi (S bi) ltac:(lia)). pose proof (cntlt_le brs (S bi)).
        destruct (partition_blockrow_spec A workers (cntlt brs bi) (cntlt brs (S bi)) f thr) as (chunks & Hch & Hp); [done|lia|lia| | |].
        - intros k Hk. apply Hf. lia.
        - eapply Nat.le_lt_trans; [|exact Hsum]. apply sum_between_mono; lia.
        - rewrite Hch. cbn [mbind outcome_bind wp]. split; [rewrite app_length; simpl; lia|].
          intros bi' chunks' Hlk. apply lookup_app_Some in Hlk as [Hlk|[Hge Hlk]]; [by apply HJ2|].
          rewrite HJ1 in *. destruct (bi' - bi) as [|d] eqn:Ed; [|by destruct d]. simpl in Hlk. injection Hlk as <-.
          by replace bi' with bi by lia. }
      apply wp_exists in Hloop as (parts & -> & HJ1 & HJ2). exists parts. split; [done|]. split; [|done].
      split; [done|]. intros bi chunks Hlk. pose proof (HJ2 _ _ Hlk) as Hp. split; [by eapply partition_spec_tiles|].
      pose proof (ps_len _ _ _ _ _ Hp). pose proof (cntlt_le brs (S bi)). lia.
    Qed.
  End blocked.
End kernels.
