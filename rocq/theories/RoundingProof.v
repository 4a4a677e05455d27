(** RoundingProof.v: the rounding error of the blocked products. *)
From Verif Require Export Rounding Cgbr3Proof.
From Coq Require Import QArith Qabs Lqa.
Local Open Scope nat_scope.

(** the products of the elements of a list with x *)
Definition prods {T : Type} `{Scalar T} (x : list T) (L : list (elem T)) : list (T * T) := (fun e => (val e, at_ x (col e))) <$> L.
Lemma prods_app {T : Type} `{Scalar T} (x : list T) L L' : prods x (L ++ L') = prods x L ++ prods x L'.
Proof. apply fmap_app. Qed.
Lemma prods_coords {T : Type} `{Scalar T} (x : list T) i L L' : coords <$> L ≡ₚ coords <$> L' -> prods x (bfilter (in_row i) L) ≡ₚ prods x (bfilter (in_row i) L').
Proof.
  intros Hp.
  assert (Heq : forall L : list (elem T), prods x (bfilter (in_row i) L) = (fun c : nat * nat * T => (c.2, at_ x c.1.2)) <$> bfilter (fun c : nat * nat * T => c.1.1 =? i) (coords <$> L)).
  { intros l. induction l as [|e l IH]; [done|]. cbn [fmap list_fmap List.filter]. unfold in_row at 1. cbn [coords fst snd].
    destruct (row e =? i); [|exact IH]. unfold prods in *. cbn [fmap list_fmap]. rewrite IH. done. }
  rewrite !Heq. by rewrite (bfilter_perm _ _ _ Hp).
Qed.
Lemma mjoin_filter {A : Type} (F : nat -> list A) (P : nat -> bool) K : (forall j, j ∈ K -> P j = false -> F j = []) ->
  mjoin (F <$> bfilter P K) = mjoin (F <$> K).
Proof.
  induction K as [|j K IH]; intros HF; [done|]. cbn [List.filter]. change (mjoin (F <$> j :: K)) with (F j ++ mjoin (F <$> K)).
  destruct (P j) eqn:HP.
  - change (mjoin (F <$> j :: bfilter P K)) with (F j ++ mjoin (F <$> bfilter P K)). rewrite IH; [done|]. intros. apply HF; [by right|done].
  - rewrite (HF j) by (done || left). apply IH. intros. apply HF; [by right|done].
Qed.
Lemma nth_seq_slice (l : list nat) s n : s + n <= length l -> (fun k => nth k l 0) <$> seq s n = slice s n l.
Proof.
  revert s. induction n as [|n IH]; intros s Hl; [done|]. destruct (lookup_lt_is_Some_2 l s) as [a Ha]; [lia|].
  assert (slice s (S n) l = a :: slice (S s) n l) as -> by (unfold slice; by rewrite (drop_S l a s)).
  cbn [seq]. rewrite fmap_cons, IH by lia. by rewrite (nth_lookup_Some _ _ 0 a Ha).
Qed.

Section blocks.
  Context {T : Type} `{Scalar T}.
  Context (roff : list nat) (nbr rows : nat) (coff : list nat) (nbc cols : nat) (E : list (elem T)).
  Context (Hr : blocking roff nbr rows) (Hc : blocking coff nbc cols) (HE : in_range rows cols E).
  Notation E' := (bsorted roff nbr coff nbc E).
  Notation I := (bids roff nbr coff nbc E).
  Notation brs := (BlocksProof.brs roff nbr coff nbc E).
  Notation at_block := (blocks_at roff nbr coff nbc E).

  (** the block ids of row i's block row *)
  Lemma row_block_ids i : i < rows -> (fun k => nth k I 0) <$> row_blocks roff nbr brs i = bfilter (has (fun id => id / nbc) (block_of roff nbr i)) I.
  Proof.
    intros Hi. unfold row_blocks. set (bi := block_of roff nbr i). set (key := fun id : nat => id / nbc).
    assert (Hks : ksorted key I).
    { pose proof (brs_sorted roff nbr coff nbc E) as Hb. unfold ksorted, BlocksProof.brs in *. by rewrite StronglySorted_fmap_iff in Hb. }
    pose proof (sorted_slice key I bi Hks) as Hsl. change (key <$> I) with brs in Hsl.
    rewrite cntlt_S in Hsl. replace (cntlt brs bi + cnteq brs bi - cntlt brs bi) with (cnteq brs bi) in Hsl by lia.
    rewrite <- Hsl. apply nth_seq_slice. rewrite <- cntlt_S. etrans; [apply cntlt_le|]. unfold BlocksProof.brs. by rewrite fmap_length.
  Qed.
  Lemma row_products x i : i < rows ->
    mjoin ((fun k => prods x (bfilter (in_row i) (at_block (nth k I 0)))) <$> row_blocks roff nbr brs i) ≡ₚ prods x (bfilter (in_row i) E).
  Proof.
    intros Hi. pose proof (list_fmap_compose (fun k => nth k I 0) (fun id => prods x (bfilter (in_row i) (at_block id))) (row_blocks roff nbr brs i)) as Hc'.
    unfold compose in Hc'. rewrite Hc'. clear Hc'. rewrite row_block_ids by done. rewrite mjoin_filter.
    - transitivity (prods x (bfilter (in_row i) E')).
      + pose proof (f_equal (fun l => prods x (bfilter (in_row i) l)) (concat_groups blk E' (bsorted_ksorted _ _ _ _ _))) as Hg.
        cbv beta in Hg. rewrite <- Hg. clear Hg. unfold per_block. fold I.
        apply reflexive_eq. unfold blocks_at. unfold bids. generalize (keys blk E'). intros K. induction K as [|id K IH]; [done|].
        change (mjoin ((fun j => group blk j E') <$> id :: K)) with (group blk id E' ++ mjoin ((fun j => group blk j E') <$> K)).
        rewrite bfilter_app, prods_app, <- IH. done.
      + apply prods_coords. apply bsorted_coords.
    - intros id Hid HP. unfold has in HP. apply Nat.eqb_neq in HP.
      assert (bfilter (in_row i) (at_block id) = []) as ->; [|done].
      apply filter_none. apply Forall_forall. intros e He. unfold in_row. apply Nat.eqb_neq. intros Hre.
      apply blocks_at_elem in He as [He Hb]. apply HP. destruct (bsorted_blk _ _ _ _ _ _ _ Hr Hc HE e He) as (_ & Hbr & _).
      by rewrite <- Hb, Hbr, Hre.
  Qed.

  Context (den : T -> Q) (finite : T -> Prop) (u eta M : Q) (HR : rounds_within den finite u eta M).
  Lemma sizes_perm P P' : P ≡ₚ P' -> (sizes den P == sizes den P')%Q.
  Proof. intros HP. unfold sizes. apply qsum_perm. by rewrite HP. Qed.
  Lemma products_perm P P' : P ≡ₚ P' -> (products den P == products den P')%Q.
  Proof. intros HP. unfold products. apply qsum_perm. by rewrite HP. Qed.
  Lemma join_sums {A : Type} (Pk Qk : A -> list (T * T)) l :
    (forall k, k ∈ l -> (sizes den (Pk k) == sizes den (Qk k))%Q /\ (products den (Pk k) == products den (Qk k))%Q) ->
    (sizes den (mjoin (Pk <$> l)) == sizes den (mjoin (Qk <$> l)))%Q /\ (products den (mjoin (Pk <$> l)) == products den (mjoin (Qk <$> l)))%Q.
  Proof.
    induction l as [|k l IH]; intros Hk; [done|].
    change (mjoin (Pk <$> k :: l)) with (Pk k ++ mjoin (Pk <$> l)). change (mjoin (Qk <$> k :: l)) with (Qk k ++ mjoin (Qk <$> l)).
    destruct (Hk k ltac:(left)) as [H1 H2]. destruct IH as [H3 H4]; [intros; apply Hk; by right|].
    rewrite !(sizes_app den), !(products_app den). split; lra.
  Qed.
  Definition block_row_ok (x : list T) (i : nat) (g : nat -> T -> T) (Pk : nat -> list (T * T)) : Prop :=
    forall k, k ∈ row_blocks roff nbr brs i ->
      (forall z, g k z = accumulate (Pk k) z) /\ Forall (fun p => finite p.1 /\ finite p.2) (Pk k) /\
      (sizes den (Pk k) == sizes den (prods x (bfilter (in_row i) (at_block (nth k I 0%nat)))))%Q /\
      (products den (Pk k) == products den (prods x (bfilter (in_row i) (at_block (nth k I 0%nat)))))%Q.
  Lemma blocks_sums x i g Pk : i < rows -> block_row_ok x i g Pk ->
    let P := mjoin (Pk <$> row_blocks roff nbr brs i) in
    Forall (fun p => finite p.1 /\ finite p.2) P /\
    forall yi, (magnitude den E x i yi == Qabs (den yi) + sizes den P)%Q /\ (exact_row den E x i yi == den yi + products den P)%Q.
  Proof.
    intros Hi Hok P. split.
    - apply Forall_forall. intros p Hp. apply elem_of_list_join in Hp as (l & Hp & Hl). apply elem_of_list_fmap in Hl as (k & -> & Hk).
      destruct (Hok k Hk) as (_ & Hf & _). rewrite Forall_forall in Hf. by apply Hf.
    - intros yi. destruct (join_sums Pk (fun k => prods x (bfilter (in_row i) (at_block (nth k I 0)))) (row_blocks roff nbr brs i)) as [H1 H2].
      { intros k Hk. destruct (Hok k Hk) as (_ & _ & H1 & H2). done. }
      fold P in H1, H2. rewrite (sizes_perm _ _ (row_products x i Hi)) in H1. rewrite (products_perm _ _ (row_products x i Hi)) in H2.
      rewrite magnitude_sizes, exact_products. unfold prods in H1, H2. split; lra.
  Qed.
  Lemma blocks_fold_within x i g Pk yi c : i < rows -> block_row_ok x i g Pk -> length (mjoin (Pk <$> row_blocks roff nbr brs i)) <= c -> finite yi ->
    within den finite u eta M (c + 1) c E x i yi (fold_left (fun z k => g k z) (row_blocks roff nbr brs i) yi).
  Proof.
    intros Hi Hok Hlen Hy. destruct (blocks_sums x i g Pk Hi Hok) as [Hf Hs]. destruct (Hs yi) as [Hs1 Hs2]. clear Hs.
    set (P := mjoin (Pk <$> row_blocks roff nbr brs i)) in *.
    apply (approx_within den finite u eta M). intros HM. rewrite (fold_accumulate g Pk) by (intros k z Hk; by apply (Hok k Hk)). fold P.
    eapply (approx_wd den finite u eta); [symmetry; exact Hs1|symmetry; exact Hs2|].
    apply (approx_mono den finite u eta M HR (1 + length P) (0 + length P)); [|lia|lia].
    apply (approx_accumulate den finite u eta M HR P 1 0); [done|done|by apply (approx_finite den finite u eta M HR)|].
    eapply Qle_trans; [|exact HM]. apply (bound_mono den finite u eta M HR); [|lia|lia|lra].
    pose proof (Qabs_nonneg (den yi)). pose proof (sizes_nonneg den P). lra.
  Qed.
  Lemma blocks_chunk_within x i g Pk yi c chunks d : i < rows -> block_row_ok x i g Pk -> length (mjoin (Pk <$> row_blocks roff nbr brs i)) <= c -> finite yi ->
    tiles chunks (cntlt brs (block_of roff nbr i)) (cntlt brs (S (block_of roff nbr i))) -> length chunks - 1 <= 2 ^ d ->
    within den finite u eta M (c + 1 + d) c E x i yi (chunk_val (length chunks) g chunks 0 (length chunks - 1) yi).
  Proof.
    intros Hi Hok Hlen Hy (Hcl & Hst & Hend & Hm) Hd. destruct (blocks_sums x i g Pk Hi Hok) as [Hf Hs]. destruct (Hs yi) as [Hs1 Hs2]. clear Hs.
    assert (Hrb : seq (nth 0 chunks 0) (nth (length chunks - 1) chunks 0 - nth 0 chunks 0) = row_blocks roff nbr brs i).
    { rewrite Hst, Hend, cntlt_S. unfold row_blocks. f_equal. lia. }
    set (P := mjoin (Pk <$> row_blocks roff nbr brs i)) in *.
    apply (approx_within den finite u eta M). intros HM.
    eapply (approx_wd den finite u eta); [symmetry; exact Hs1|symmetry; exact Hs2|].
    apply (approx_mono den finite u eta M HR (1 + length P + d) (0 + length P)); [|lia|lia].
    assert (Hin : forall k, nth 0 chunks 0 <= k < nth (length chunks - 1) chunks 0 ->
       (forall z, g k z = accumulate (Pk k) z) /\ Forall (fun p => finite p.1 /\ finite p.2) (Pk k)).
    { intros k Hk. destruct (Hok k) as (H1 & H2 & _); [|done]. rewrite <- Hrb. apply elem_of_seq. lia. }
    pose proof (approx_chunks den finite u eta M HR g Pk chunks (length chunks) Hm Hin d 0 (length chunks - 1) 1 0 (Qabs (den yi)) yi (den yi)
      ltac:(lia) ltac:(lia) ltac:(lia) ltac:(lia) (le_n _) (approx_finite den finite u eta M HR yi Hy)) as HA.
    cbv zeta in HA. rewrite Hrb in HA. fold P in HA. apply HA.
    eapply Qle_trans; [|exact HM]. apply (bound_mono den finite u eta M HR); [|lia|lia|lra].
    pose proof (Qabs_nonneg (den yi)). pose proof (sizes_nonneg den P). lra.
  Qed.
  (** blocks that accumulate their elements *)
  Lemma plain_blocks_ok x i : finite_matrix finite E -> finite_vector finite x ->
    block_row_ok x i (fun k => row_acc (at_block (nth k I 0)) x i) (fun k => prods x (bfilter (in_row i) (at_block (nth k I 0)))).
  Proof.
    intros HfE Hx k Hk. split; [intros z; apply row_acc_accumulate|]. split; [|done].
    apply Forall_fmap, Forall_forall. intros e He. unfold compose. cbn [fst snd]. split; [|by apply (finite_at den finite u eta M HR)].
    apply elem_of_bfilter in He as [He _]. apply blocks_at_elem in He as [He _].
    assert (Hce : coords e ∈ coords <$> E) by (rewrite <- (bsorted_coords roff nbr coff nbc E); by apply elem_of_list_fmap_1).
    apply elem_of_list_fmap in Hce as (e' & Hce & He'). unfold finite_matrix in HfE. rewrite Forall_forall in HfE. specialize (HfE _ He').
    unfold coords in Hce. injection Hce as _ _ ->. done.
  Qed.
  Lemma spmv_chunked_within `{Widths} x parts y i yi d : finite_matrix finite E -> finite_vector finite x -> length y = rows ->
    good_partition nbr brs parts -> y !! i = Some yi -> finite yi -> (length (row_chunks roff nbr parts i) - 1 <= 2 ^ d) ->
    exists v, spmv_chunked roff nbr coff nbc E x parts y !! i = Some v /\
      within den finite u eta M (row_size E i + 1 + d) (row_size E i) E x i yi v.
  Proof.
    intros HfE Hx Hy [Hlen Hgood] Hyi Hfy Hd. eexists. split; [unfold spmv_chunked; rewrite list_lookup_imap, Hyi; reflexivity|]. cbv zeta beta.
    assert (Hi : i < rows) by (rewrite <- Hy; by eapply lookup_lt_Some).
    destruct (block_of_spec roff nbr rows i Hr Hi) as [Hbi _]. destruct (lookup_lt_is_Some_2 parts (block_of roff nbr i)) as [chunks Hch]; [lia|].
    destruct (Hgood _ _ Hch) as [Ht _]. unfold row_chunks in *. rewrite (nth_lookup_Some parts _ [] chunks Hch) in *.
    eapply blocks_chunk_within; [done|by apply plain_blocks_ok| |done|exact Ht|exact Hd].
    rewrite (Permutation_length (row_products x i Hi)). unfold prods. by rewrite fmap_length.
  Qed.
End blocks.

(** ** dense rows *)
Lemma qsum_ext {A : Type} (f g : A -> Q) l : (forall a, a ∈ l -> (f a == g a)%Q) -> (qsum (f <$> l) == qsum (g <$> l))%Q.
Proof.
  induction l as [|a l IH]; intros Hf; [done|]. change (f a + qsum (f <$> l) == g a + qsum (g <$> l))%Q.
  rewrite (Hf a) by left. rewrite IH by (intros; apply Hf; by right). done.
Qed.
Lemma qsum_zero {A : Type} (f : A -> Q) l : (forall a, a ∈ l -> (f a == 0)%Q) -> (qsum (f <$> l) == 0)%Q.
Proof.
  induction l as [|a l IH]; intros Hf; [done|]. change (f a + qsum (f <$> l) == 0)%Q.
  rewrite (Hf a) by left. rewrite IH by (intros; apply Hf; by right). done.
Qed.
Lemma qsum_point (f g : nat -> Q) n c (a : Q) : c < n -> (forall j, j < n -> j <> c -> (f j == g j)%Q) -> (f c == g c + a)%Q ->
  (qsum (f <$> seq 0 n) == qsum (g <$> seq 0 n) + a)%Q.
Proof.
  intros Hc Hf Hfc. replace n with (c + (1 + (n - S c))) by lia. rewrite !seq_app, !fmap_app, !qsum_app. cbn [Nat.add seq].
  rewrite (qsum_ext f g (seq 0 c)) by (intros j Hj%elem_of_seq; apply Hf; lia).
  rewrite (qsum_ext f g (seq (c + 1) (n - S c))) by (intros j Hj%elem_of_seq; apply Hf; lia).
  change (qsum (f <$> [c])) with (f c + 0)%Q. change (qsum (g <$> [c])) with (g c + 0)%Q. lra.
Qed.
Section dense.
  Context {T : Type} `{Scalar T}.
  Definition dense_prods (L : list (elem T)) (cs : nat) (x : list T) (r : nat) : list (T * T) :=
    (fun j => (last_entry L r j, at_ x j)) <$> seq 0 cs.
  Lemma dense_row_accumulate L cs x r z : dense_row_acc L cs x r z = accumulate (dense_prods L cs x r) z.
  Proof.
    unfold dense_row_acc, accumulate, dense_prods. generalize (seq 0 cs). intros l. revert z.
    induction l as [|j l IH]; intros z; [done|]. cbn [fmap list_fmap fold_left]. apply IH.
  Qed.
  Lemma last_entry_cons (e : elem T) L r j : distinct_coords (e :: L) ->
    last_entry (e :: L) r j = if (row e =? r) && (col e =? j) then val e else last_entry L r j.
  Proof.
    unfold distinct_coords. rewrite fmap_cons. intros [Hn _]%NoDup_cons. unfold last_entry. cbn [fold_left].
    destruct ((row e =? r) && (col e =? j)) eqn:Hm; [|done]. apply andb_true_iff in Hm as [H1 H2]. apply Nat.eqb_eq in H1, H2.
    assert (Hf : Forall (fun e' => ~ (row e' = r /\ col e' = j)) L).
    { apply Forall_forall. intros e' He' [H3 H4]. apply Hn. apply elem_of_list_fmap. exists e'. split; [congruence|done]. }
    generalize (val e). clear Hn. induction Hf as [|e' l He' _ IH]; intros z; [done|]. cbn [fold_left].
    destruct (Nat.eqb_spec (row e') r), (Nat.eqb_spec (col e') j); try apply IH. by destruct He'.
  Qed.
  Lemma dense_sum (f : T * T -> Q) L cs x r : (forall w, (f (s0, w) == 0)%Q) -> distinct_coords L -> Forall (fun e => col e < cs) L ->
    (qsum (f <$> dense_prods L cs x r) == qsum (f <$> prods x (bfilter (in_row r) L)))%Q.
  Proof.
    intros Hf0 Hd Hcs. unfold dense_prods, prods. induction L as [|e L IH].
    - cbn [List.filter]. rewrite <- list_fmap_compose. apply qsum_zero. intros j _. unfold compose. apply Hf0.
    - inversion_clear Hcs as [|? ? Hce HcL]. pose proof Hd as Hd'. unfold distinct_coords in Hd'. rewrite fmap_cons in Hd'. apply NoDup_cons in Hd' as [Hn HdL].
      specialize (IH HdL HcL). rewrite <- !list_fmap_compose in *. cbn [List.filter]. unfold in_row at 1.
      destruct (Nat.eqb_spec (row e) r) as [Hr|Hr].
      + rewrite fmap_cons. change (qsum (?a :: ?l)) with (a + qsum l)%Q. rewrite <- IH.
        rewrite (qsum_point (f ∘ (fun j => (last_entry (e :: L) r j, at_ x j))) (f ∘ (fun j => (last_entry L r j, at_ x j))) cs (col e) ((f ∘ (fun e0 => (val e0, at_ x (col e0)))) e)); [lra|done| |].
        * intros j Hj Hne. unfold compose. rewrite last_entry_cons by done. rewrite Hr, Nat.eqb_refl. rewrite (proj2 (Nat.eqb_neq (col e) j)) by done. done.
        * unfold compose. rewrite last_entry_cons by done. rewrite Hr, !Nat.eqb_refl. cbn [andb].
          rewrite last_entry_none; [rewrite Hf0; lra|]. apply Forall_forall. intros e' He' [H3 H4]. apply Hn. apply elem_of_list_fmap. exists e'. split; [congruence|done].
      + rewrite <- IH. apply qsum_ext. intros j _. unfold compose. rewrite last_entry_cons by done. rewrite (proj2 (Nat.eqb_neq (row e) r)) by done. done.
  Qed.
End dense.

(** the blocks of a block row do not overlap: their widths add up to at most the columns *)
Lemma sum_widths (coff : list nat) nbc cols n : blocking coff nbc cols -> n <= nbc ->
  sum_list_with (fun bc => nth (S bc) coff 0 - nth bc coff 0) (seq 0 n) = nth n coff 0.
Proof.
  intros Hc. induction n as [|n IH]; intros Hn; [by destruct Hc as (_ & -> & _)|].
  rewrite seq_S, sum_list_with_app, IH by lia. cbn. pose proof (blocking_mono _ _ _ n (S n) Hc ltac:(lia) ltac:(lia)). lia.
Qed.
Lemma sum_submseteq {A : Type} (f : A -> nat) (l l' : list A) : l ⊆+ l' -> sum_list_with f l <= sum_list_with f l'.
Proof. induction 1; cbn; lia. Qed.
Lemma length_mjoin {A B : Type} (F : A -> list B) l : length (mjoin (F <$> l)) = sum_list_with (fun a => length (F a)) l.
Proof. induction l as [|a l IH]; [done|]. change (mjoin (F <$> a :: l)) with (F a ++ mjoin (F <$> l)). rewrite app_length, IH. done. Qed.
Lemma sum_list_with_le {A : Type} (f g : A -> nat) l : (forall a, a ∈ l -> f a <= g a) -> sum_list_with f l <= sum_list_with g l.
Proof. induction l as [|a l IH]; intros Hf; [done|]. cbn. pose proof (Hf a ltac:(left)). assert (sum_list_with f l <= sum_list_with g l) by (apply IH; intros; apply Hf; by right). lia. Qed.
Lemma sum_list_with_plus {A : Type} (f g : A -> nat) l : sum_list_with (fun a => f a + g a) l = sum_list_with f l + sum_list_with g l.
Proof. induction l as [|a l IH]; [done|]. cbn. rewrite IH. lia. Qed.

Section cgbr.
  Context {T : Type} `{Scalar T} `{Widths}.
  Context (roff : list nat) (nbr rows : nat) (coff : list nat) (nbc cols : nat) (E : list (elem T)).
  Context (Hr : blocking roff nbr rows) (Hc : blocking coff nbc cols) (HE : in_range rows cols E).
  Context (Hne : E <> []) (Hnr : nbr <= rows) (Hnc : nbc <= cols) (Hids : numbered roff nbr coff nbc E).
  Context (Hrows : rows + 1 < itW) (Hcols : cols < itW) (Hnnz : length E < itW).
  Context (make : factory (T := T)) (tag : mblock T -> nat) (dense : nat -> Prop).
  Notation I := (bids roff nbr coff nbc E).
  Notation local := (local roff nbr coff nbc E).
  Notation at_block := (blocks_at roff nbr coff nbc E).
  Notation made_block := (made_block roff nbr coff nbc E make).
  Notation made_left := (made_left roff nbr coff nbc E make).
  Notation brs := (BlocksProof.brs roff nbr coff nbc E).
  Context (Hmk : forall id, id ∈ I -> exists B ty L, makes make tag (local id) (rsz roff nbc id) (csz coff nbc id) B ty L /\ (~ dense id -> ~ is_dense (gb_mat B))).
  Context (Hdist : forall id, id ∈ I -> dense id -> distinct_coords (local id)).
  Context (Hdec : forall id, dense id \/ ~ dense id).
  Context (den : T -> Q) (finite : T -> Prop) (u eta M : Q) (HR : rounds_within den finite u eta M).
  Context (x : list T) (HfE : finite_matrix finite E) (Hfx : finite_vector finite x).

  Lemma row_width_sum i : i < rows -> sum_list_with (fun k => csz coff nbc (nth k I 0)) (row_blocks roff nbr brs i) <= cols.
  Proof.
    intros Hi. destruct (block_of_spec roff nbr rows i Hr Hi) as [Hbi _].
    assert (Heq : sum_list_with (fun k => csz coff nbc (nth k I 0)) (row_blocks roff nbr brs i) =
       sum_list_with (fun bc => nth (S bc) coff 0 - nth bc coff 0) ((fun k => nth k I 0 mod nbc) <$> row_blocks roff nbr brs i)).
    { induction (row_blocks roff nbr brs i) as [|k l IH]; [done|]. cbn. by rewrite <- IH. }
    rewrite Heq. clear Heq.
    transitivity (sum_list_with (fun bc => nth (S bc) coff 0 - nth bc coff 0) (seq 0 nbc)).
    2:{ rewrite (sum_widths coff nbc cols nbc Hc) by lia. destruct Hc as (_ & _ & -> & _). lia. }
    apply sum_submseteq.
    pose proof (list_fmap_compose (fun k => nth k I 0) (fun id => id mod nbc) (row_blocks roff nbr brs i)) as Hcm. unfold compose in Hcm. rewrite Hcm. clear Hcm.
    rewrite (row_block_ids roff nbr rows coff nbc E i Hi).
    set (K := bfilter _ I).
    assert (HK : forall id, id ∈ K -> id ∈ I /\ id / nbc = block_of roff nbr i).
    { intros id Hid. apply elem_of_bfilter in Hid as [H1 H2]. split; [done|]. by apply Nat.eqb_eq in H2. }
    apply NoDup_submseteq.
    - assert (Hnd : NoDup K) by (apply NoDup_ListNoDup, List.NoDup_filter, NoDup_ListNoDup; exact (ids_NoDup (blk <$> bsorted roff nbr coff nbc E) (proj1 (ksorted_keys blk _) (bsorted_ksorted roff nbr coff nbc E)))).
      clear -Hnd HK. induction K as [|id K IH]; [constructor|]. apply NoDup_cons in Hnd as [Hn Hnd]. rewrite fmap_cons. apply NoDup_cons. split.
      + intros (id' & Heq & Hid')%elem_of_list_fmap. apply Hn. replace id with id'; [done|].
        destruct (HK id ltac:(left)) as [_ H1]. destruct (HK id' ltac:(by right)) as [_ H2].
        rewrite (Nat.div_mod_eq id nbc), (Nat.div_mod_eq id' nbc). by rewrite H1, H2, Heq.
      + apply IH; [|done]. intros. apply HK. by right.
    - intros bc (id & -> & Hid)%elem_of_list_fmap. apply HK in Hid as [Hid _].
      destruct (bids_range _ _ _ _ _ _ _ Hr Hc HE id Hid) as (_ & _ & H2 & _). apply elem_of_seq. lia.
  Qed.

  Definition made_prods (i k : nat) : list (T * T) :=
    let id := nth k I 0 in
    match gb_mat (made_block id) with
    | MDense _ => dense_prods (made_left id) (csz coff nbc id) (drop (co coff nbc id) x) (i - ro roff nbc id)
    | _ => prods (drop (co coff nbc id) x) (bfilter (in_row (i - ro roff nbc id)) (made_left id))
    end.
  Lemma row_blocks_id i k : i < rows -> k ∈ row_blocks roff nbr brs i -> nth k I 0 ∈ I /\ ro roff nbc (nth k I 0) <= i.
  Proof.
    intros Hi Hk. destruct (block_of_spec roff nbr rows i Hr Hi) as [Hbi [Hb1 Hb2]]. unfold row_blocks in Hk. cbv zeta in Hk. apply elem_of_seq in Hk.
    pose proof (brs_between brs (brs_sorted roff nbr coff nbc E) (block_of roff nbr i) k ltac:(rewrite cntlt_S; lia)) as Hkb.
    unfold BlocksProof.brs in Hkb. rewrite list_lookup_fmap in Hkb. destruct (I !! k) as [id|] eqn:Hid; [|done]. injection Hkb as Hkb.
    rewrite (nth_lookup_Some I k 0 id Hid). split; [by eapply elem_of_list_lookup_2|]. unfold ro. rewrite Hkb. lia.
  Qed.
  Lemma local_prods id i : id ∈ I -> ro roff nbc id <= i ->
    prods (drop (co coff nbc id) x) (bfilter (in_row (i - ro roff nbc id)) (local id)) = prods x (bfilter (in_row i) (at_block id)).
  Proof.
    intros Hid Hi. unfold CgbrProof.local.
    assert (Hf : Forall (fun e => ro roff nbc id <= row e /\ co coff nbc id <= col e /\ blk e = id) (at_block id)).
    { apply Forall_forall. intros e He. apply blocks_at_elem in He as [He Hb]. destruct (loc_inside _ _ _ _ _ _ _ Hr Hc HE e He) as [H1 H2]. rewrite Hb in *. lia. }
    induction Hf as [|e l (H1 & H2 & H3) _ IH]; [done|]. rewrite fmap_cons. cbn [List.filter].
    change (in_row (i - ro roff nbc id) (BlocksProof.loc roff coff nbc e)) with (row e - ro roff nbc (blk e) =? i - ro roff nbc id). change (in_row i e) with (row e =? i).
    rewrite H3. destruct (Nat.eqb_spec (row e - ro roff nbc id) (i - ro roff nbc id)) as [Heq|Hn].
    - rewrite (proj2 (Nat.eqb_eq (row e) i)) by lia. unfold prods in *. rewrite !fmap_cons, IH. f_equal. cbn [val col BlocksProof.loc]. f_equal.
      rewrite H3, at_drop. f_equal. lia.
    - rewrite (proj2 (Nat.eqb_neq (row e) i)) by lia. exact IH.
  Qed.
  Lemma finite_block id e : e ∈ at_block id -> finite (val e).
  Proof.
    intros He. apply blocks_at_elem in He as [He _].
    assert (Hce : coords e ∈ coords <$> E) by (rewrite <- (bsorted_coords roff nbr coff nbc E); by apply elem_of_list_fmap_1).
    apply elem_of_list_fmap in Hce as (e' & Hce & He'). unfold finite_matrix in HfE. rewrite Forall_forall in HfE. specialize (HfE _ He').
    unfold coords in Hce. injection Hce as _ _ ->. done.
  Qed.
  Lemma finite_left id e : id ∈ I -> e ∈ made_left id -> finite (val e).
  Proof.
    intros Hid He. destruct (made_makes roff nbr coff nbc E make tag dense Hmk id Hid) as [HM _].
    rewrite (mk_same _ _ _ _ _ _ _ _ HM) in He. unfold CgbrProof.local in He. apply elem_of_list_fmap in He as (e' & -> & He'). cbn. by eapply finite_block.
  Qed.
  Lemma finite_last L r j : (forall e, e ∈ L -> finite (val e)) -> finite (last_entry L r j).
  Proof.
    unfold last_entry. assert (Hz : finite s0) by apply (rw_zero _ _ _ _ _ HR). revert Hz. generalize (s0 (T := T)). induction L as [|e L IH]; intros z Hz HL; [done|].
    cbn [fold_left]. apply IH; [|intros; apply HL; by right]. destruct (_ && _); [apply HL; left|done].
  Qed.
  Lemma finite_drop n : finite_vector finite (drop n x).
  Proof. unfold finite_vector in *. by apply Forall_drop. Qed.
  Lemma made_ok i : i < rows ->
    block_row_ok roff nbr coff nbc E den finite x i (fun k => block_val roff nbr coff nbc E make x (nth k I 0) i) (made_prods i).
  Proof.
    intros Hi k Hk. destruct (row_blocks_id i k Hi Hk) as [Hid Hro]. unfold made_prods. set (id := nth k I 0) in *. cbv zeta.
    destruct (made_makes roff nbr coff nbc E make tag dense Hmk id Hid) as [HM HD]. pose proof (mk_same _ _ _ _ _ _ _ _ HM) as Hp.
    assert (Hpp : prods (drop (co coff nbc id) x) (bfilter (in_row (i - ro roff nbc id)) (made_left id)) ≡ₚ prods x (bfilter (in_row i) (at_block id))).
    { rewrite <- (local_prods id i Hid Hro). unfold prods. by rewrite (bfilter_perm _ _ _ Hp). }
    assert (Hplain : Forall (fun p : T * T => finite p.1 /\ finite p.2) (prods (drop (co coff nbc id) x) (bfilter (in_row (i - ro roff nbc id)) (made_left id)))).
    { unfold prods. apply Forall_fmap, Forall_forall. intros e He. unfold compose. cbn [fst snd]. apply elem_of_bfilter in He as [He _].
      split; [by eapply finite_left|]. apply (finite_at den finite u eta M HR), finite_drop. }
    unfold block_val, mblock_value. destruct (gb_mat (made_block id)) eqn:Hgm;
      try (split; [intros z; apply row_acc_accumulate|]; split; [exact Hplain|]; split; [by apply sizes_perm|by apply products_perm]).
    assert (Hdl : distinct_coords (made_left id)).
    { assert (Hdn : dense id) by (destruct (Hdec id) as [|Hd]; [done|]; exfalso; by apply (HD Hd)).
      pose proof (Hdist id Hid Hdn) as Hl. unfold distinct_coords in *. by rewrite Hp. }
    assert (Hcl : Forall (fun e => col e < csz coff nbc id) (made_left id)).
    { rewrite Hp. unfold CgbrProof.local. eapply Forall_impl; [apply (loc_range _ _ _ _ _ _ _ Hr Hc HE id Hid)|]. by intros e [_ ?]. }
    destruct (rw_zero _ _ _ _ _ HR) as [_ Hz].
    split; [intros z; apply dense_row_accumulate|]. split.
    { unfold dense_prods. apply Forall_fmap, Forall_forall. intros j _. unfold compose. cbn [fst snd]. split.
      - apply finite_last. intros e He. by eapply finite_left.
      - apply (finite_at den finite u eta M HR), finite_drop. }
    split.
    - rewrite <- (sizes_perm den _ _ Hpp). apply dense_sum; [|done|done]. intros w. cbn [fst snd]. rewrite (Qabs_wd _ _ Hz). change (Qabs 0) with 0%Q. lra.
    - rewrite <- (products_perm den _ _ Hpp). apply dense_sum; [|done|done]. intros w. cbn [fst snd]. rewrite Hz. lra.
  Qed.
  Lemma made_length i : i < rows -> length (mjoin (made_prods i <$> row_blocks roff nbr brs i)) <= row_size E i + cols.
  Proof.
    intros Hi. rewrite length_mjoin. pose proof (row_width_sum i Hi) as Hw.
    pose proof (Permutation_length (row_products roff nbr rows coff nbc cols E Hr Hc HE x i Hi)) as Hs. rewrite length_mjoin in Hs.
    assert (Hs2 : length (prods x (bfilter (in_row i) E)) = row_size E i) by (unfold prods; by rewrite fmap_length). rewrite Hs2 in Hs.
    rewrite <- Hs. etrans; [|apply Nat.add_le_mono_l, Hw]. rewrite <- sum_list_with_plus. apply sum_list_with_le. intros k Hk.
    destruct (row_blocks_id i k Hi Hk) as [Hid Hro]. unfold made_prods. set (id := nth k I 0) in *. cbv zeta.
    destruct (made_makes roff nbr coff nbc E make tag dense Hmk id Hid) as [HM HD]. pose proof (mk_same _ _ _ _ _ _ _ _ HM) as Hp.
    assert (Hpl : length (prods (drop (co coff nbc id) x) (bfilter (in_row (i - ro roff nbc id)) (made_left id))) = length (prods x (bfilter (in_row i) (at_block id)))).
    { rewrite <- (local_prods id i Hid Hro). unfold prods. rewrite !fmap_length. apply Permutation_length. by rewrite (bfilter_perm _ _ _ Hp). }
    destruct (gb_mat (made_block id)); try (rewrite Hpl; lia). unfold dense_prods. rewrite fmap_length, seq_length. lia.
  Qed.
  Lemma made_length_plain i : i < rows -> (forall id, id ∈ I -> ~ dense id) -> length (mjoin (made_prods i <$> row_blocks roff nbr brs i)) <= row_size E i.
  Proof.
    intros Hi Hnd. rewrite length_mjoin.
    pose proof (Permutation_length (row_products roff nbr rows coff nbc cols E Hr Hc HE x i Hi)) as Hs. rewrite length_mjoin in Hs.
    assert (Hs2 : length (prods x (bfilter (in_row i) E)) = row_size E i) by (unfold prods; by rewrite fmap_length). rewrite Hs2 in Hs.
    rewrite <- Hs. apply sum_list_with_le. intros k Hk.
    destruct (row_blocks_id i k Hi Hk) as [Hid Hro]. unfold made_prods. set (id := nth k I 0) in *. cbv zeta.
    destruct (made_makes roff nbr coff nbc E make tag dense Hmk id Hid) as [HM HD]. pose proof (mk_same _ _ _ _ _ _ _ _ HM) as Hp. specialize (HD (Hnd id Hid)).
    assert (Hpl : length (prods (drop (co coff nbc id) x) (bfilter (in_row (i - ro roff nbc id)) (made_left id))) = length (prods x (bfilter (in_row i) (at_block id)))).
    { rewrite <- (local_prods id i Hid Hro). unfold prods. rewrite !fmap_length. apply Permutation_length. by rewrite (bfilter_perm _ _ _ Hp). }
    destruct (gb_mat (made_block id)); try (rewrite Hpl; lia). exfalso. by apply HD.
  Qed.
  (** [c]: the extra products of the zeros of dense blocks *)
  Context (c : nat) (Hcap : c = cols \/ c = 0 /\ forall id, id ∈ I -> ~ dense id).
  Lemma made_length_cap i : i < rows -> length (mjoin (made_prods i <$> row_blocks roff nbr brs i)) <= row_size E i + c.
  Proof. intros Hi. destruct Hcap as [->|[-> Hn]]; [by apply made_length|]. rewrite Nat.add_0_r. by apply made_length_plain. Qed.
  Lemma row_val_within y i yi : length y = rows -> y !! i = Some yi -> finite yi ->
    exists v, imap (row_val roff nbr coff nbc E make x) y !! i = Some v /\
      within den finite u eta M (row_size E i + c + 1) (row_size E i + c) E x i yi v.
  Proof.
    intros Hy Hyi Hfy. eexists. split; [rewrite list_lookup_imap, Hyi; reflexivity|]. cbv beta.
    assert (Hi : i < rows) by (rewrite <- Hy; by eapply lookup_lt_Some). unfold row_val.
    eapply (blocks_fold_within roff nbr rows coff nbc cols E Hr Hc HE den finite u eta M HR x i _ (made_prods i)); [done|by apply made_ok|by apply made_length_cap|done].
  Qed.
  Lemma chunked_val_within parts y i yi d : length y = rows -> good_partition nbr brs parts -> y !! i = Some yi -> finite yi ->
    (length (row_chunks roff nbr parts i) - 1 <= 2 ^ d) ->
    exists v, imap (chunked_val roff nbr coff nbc E make x parts) y !! i = Some v /\
      within den finite u eta M (row_size E i + c + 1 + d) (row_size E i + c) E x i yi v.
  Proof.
    intros Hy [Hlen Hgood] Hyi Hfy Hd. eexists. split; [rewrite list_lookup_imap, Hyi; reflexivity|]. cbv beta.
    assert (Hi : i < rows) by (rewrite <- Hy; by eapply lookup_lt_Some). unfold chunked_val. cbv zeta.
    destruct (block_of_spec roff nbr rows i Hr Hi) as [Hbi _]. destruct (lookup_lt_is_Some_2 parts (block_of roff nbr i)) as [chunks Hch]; [lia|].
    destruct (Hgood _ _ Hch) as [Ht _]. unfold row_chunks in *. rewrite (nth_lookup_Some parts _ [] chunks Hch) in *.
    eapply (blocks_chunk_within roff nbr rows coff nbc cols E Hr Hc HE den finite u eta M HR x i _ (made_prods i)); [done|by apply made_ok|by apply made_length_cap|done|exact Ht|exact Hd].
  Qed.
End cgbr.
