(** Properties_BlockCoo2.v: C100, the block of triplets with short indices
    (include/matrix/block_coo.2.h) and its order. *)
From Verif Require Export BlockCoo2.
From Verif Require Import WordsProof UtilsProof KernelsProof SimpleProof Properties_Utils Properties_Simple Properties_Io Properties_Tools4.
From Coq Require Import ZifyNat ZifyBool ZifyN.

Lemma all_written_full {A} (l : list A) : all_written (full l) = Ok l.
Proof. induction l as [|v l IH]; [done|]. cbn. fold (full l). by rewrite IH. Qed.
(** keeping the low 2h bits of a Morton code keeps the codes of the low halves *)
Lemma interleave_low (h r c : N) : (r < 2 ^ 16)%N -> (c < 2 ^ 16)%N ->
  (bit_interleave r c mod 2 ^ (2 * h))%N = bit_interleave (r mod 2 ^ h) (c mod 2 ^ h).
Proof.
  intros Hr Hc. assert (Hl : forall x, (x < 2 ^ 16 -> x mod 2 ^ h < 2 ^ 16)%N).
  { intros x Hx. eapply N.le_lt_trans; [apply N.mod_le, N.pow_nonzero; lia|exact Hx]. }
  pose proof (Hl r Hr) as Hr'. pose proof (Hl c Hc) as Hc'. apply N.bits_inj. intros i.
  assert (Hi : exists j, i = (2 * j)%N \/ i = (2 * j + 1)%N).
  { exists (i / 2)%N. pose proof (N.div_mod i 2 ltac:(lia)). pose proof (N.mod_lt i 2 ltac:(lia)). lia. }
  destruct Hi as [j [-> | ->]].
  - rewrite (proj1 (interleave_bits _ _ j Hr' Hc')). destruct (N.lt_ge_cases j h) as [Hj|Hj].
    + rewrite !N.mod_pow2_bits_low by lia. by rewrite (proj1 (interleave_bits _ _ j Hr Hc)).
    + by rewrite !N.mod_pow2_bits_high by lia.
  - rewrite (proj2 (interleave_bits _ _ j Hr' Hc')). destruct (N.lt_ge_cases j h) as [Hj|Hj].
    + rewrite !N.mod_pow2_bits_low by lia. by rewrite (proj2 (interleave_bits _ _ j Hr Hc)).
    + by rewrite !N.mod_pow2_bits_high by lia.
Qed.

Section C100.
  Context {T : Type} `{Scalar T} `{Widths}.
  Implicit Types (E L : list (elem T)) (e : elem T).
  Definition small_index e : Prop := row e < sitW /\ col e < sitW.
  (** an element without its block number, which triplets do not have *)
  Definition triplet e : elem T := Elem (row e) (col e) (val e) 0.
  Definition short_key e : N := short_interleave (row e) (col e).
  (** the shift 1 << (8 * sizeof(SIT)) is done only when IT is wider, and defined below 2^31 *)
  Definition shift_ok : Prop := itW <= sitW \/ (sitW < itW /\ (N.of_nat sitW < 2 ^ 31)%N).

  Lemma swo_short : swo (@compare_morton_short T _).
  Proof. unfold compare_morton_short. split; [intros x y | intros x y z]; rewrite ?N.ltb_lt, ?N.ltb_ge; lia. Qed.
  Lemma Coo_to_BlockCoo2_eq E : shift_ok -> Forall small_index E ->
    Coo_to_BlockCoo2 E = Ok (BCoo2 (length E) (isort compare_morton_short (triplet <$> E))).
  Proof.
    intros Hs HE. unfold Coo_to_BlockCoo2.
    assert (Hg : (if sitW <? itW then if (2147483648 <=? N.of_nat sitW)%N then Undef BadShift
                  else for_range 0 (length E) (fun i _ => e ← lget E i; assert_ ((row e <? sitW) && (col e <? sitW))) tt else Ok tt) = Ok tt).
    { destruct Hs as [Hs|[Hs1 Hs2]]; [by rewrite (proj2 (Nat.ltb_ge _ _) Hs)|]. rewrite (proj2 (Nat.ltb_lt _ _) Hs1), (proj2 (N.leb_gt _ _)) by (exact Hs2). by apply assert_loop_ok. }
    rewrite Hg. cbn [mbind outcome_bind].
    match goal with |- context [for_range 0 (length E) ?bd ?i] => assert (Hw : for_range 0 (length E) bd i = Ok (part (triplet <$> E) (length E))) end.
    { apply wp_eq. eapply wp_mono; [apply (wp_for_range (fun i a => a = part (triplet <$> take i E) (length E))); [lia| |]|].
      - change (triplet <$> take 0 E) with (@nil (elem T)). by rewrite part_nil.
      - intros i a Hi ->. destruct (lookup_lt_is_Some_2 E i) as [e He]; [lia|]. rewrite (lget_some _ _ _ He). cbn [mbind outcome_bind].
        pose proof (part_set (triplet <$> take i E) (length E) (triplet e)) as Hp. rewrite fmap_length, take_length, Nat.min_l in Hp by lia. specialize (Hp ltac:(lia)).
        rewrite Forall_lookup in HE. destruct (HE _ _ He) as [H1 H2]. rewrite !swrap_small by done. fold (triplet e). rewrite Hp. cbn [wp].
        by rewrite (take_S_r _ _ _ He), fmap_app.
      - cbn. intros a ->. by rewrite firstn_all. }
    rewrite Hw. cbn [mbind outcome_bind]. unfold part. rewrite fmap_length, Nat.sub_diag, app_nil_r, all_written_full. cbn [mbind outcome_bind].
    unfold sort_triplets_morton_short. rewrite psort_isort by apply swo_short. done.
  Qed.

  (** C100: if all indices are short, the block holds the elements of the array, sorted by
      their codes in the short type and otherwise in the order given; the array, whatever its
      indices, is only read *)
  Theorem C100_construct E : shift_ok -> Forall small_index E ->
    exists A, Coo_to_BlockCoo2 E = Ok A /\ t_nnz A = length E /\
      sorts_stably (fun a b => (short_key a <= short_key b)%N) (fun a b => (short_key a =? short_key b)%N) (triplet <$> E) (t_triplets A).
  Proof.
    intros Hs HE. rewrite Coo_to_BlockCoo2_eq by done. eexists. split; [done|]. split; [done|]. cbn [t_triplets]. apply sorts_intro; [apply swo_short| |].
    - intros a b. unfold compare_morton_short, short_key. by rewrite N.ltb_ge.
    - intros a b. unfold equivb, compare_morton_short, short_key. generalize (short_interleave (row a) (col a)) (short_interleave (row b) (col b)). intros p q.
      destruct (N.ltb_spec p q), (N.ltb_spec q p), (N.eqb_spec p q); simpl; try done; lia.
  Qed.
  (** an index that does not fit the short type is rejected *)
  Theorem C100_rejects E : sitW < itW -> (N.of_nat sitW < 2 ^ 31)%N -> Exists (fun e => sitW <= row e \/ sitW <= col e) E ->
    Coo_to_BlockCoo2 E = Abort.
  Proof.
    intros H1 H2 HE. unfold Coo_to_BlockCoo2. rewrite (proj2 (Nat.ltb_lt _ _) H1), (proj2 (N.leb_gt _ _)) by (exact H2). rewrite assert_loop_abort; [done|].
    intros HF. apply Exists_exists in HE as (e & He & Hbad). rewrite Forall_forall in HF. specialize (HF e He). cbv beta in HF. lia.
  Qed.
  (** the product: y + A x, whatever the order *)
  Theorem C100_spmv E (rows columns : nat) (x y : list T) (b : buf) (xo : nat) : shift_ok -> Forall small_index E ->
    in_range rows columns E -> xo + columns <= length x -> length y = rows ->
    exists A, Coo_to_BlockCoo2 E = Ok A /\ t_triplets A ≡ₚ triplet <$> E /\
      all_schedules (bcoo2_spmv A x xo b 0) (heap_of b y) tt (heap_of b (spmv_in_order (t_triplets A) (drop xo x) y)).
  Proof.
    intros Hs HE Hin Hx Hy. rewrite Coo_to_BlockCoo2_eq by done. eexists. split; [done|]. cbn [t_triplets]. split; [apply isort_perm|].
    apply (performs_vector _ b y (fun _ => False)); [|by intros []]. rewrite Hy. unfold bcoo2_spmv. cbn [t_triplets t_nnz].
    rewrite <- (fmap_length triplet E), <- (isort_length compare_morton_short). eapply performs_spmv_coo_aos; [|done].
    eapply in_range_perm; [symmetry; apply isort_perm|]. unfold in_range in *. apply Forall_fmap. eapply Forall_impl; [exact Hin|]. done.
  Qed.

  (** ** the order *)
  (** the code in a short type of 2h bits is the Morton code of the low h bits of the indices *)
  Theorem C100_low_bits (h : N) e : N.of_nat sitW = (2 ^ (2 * h))%N -> (N.of_nat (row e) < 2 ^ 16)%N -> (N.of_nat (col e) < 2 ^ 16)%N ->
    short_key e = bit_interleave (N.of_nat (row e) mod 2 ^ h) (N.of_nat (col e) mod 2 ^ h).
  Proof. intros Hw Hr Hc. unfold short_key, short_interleave. rewrite Hw. by apply interleave_low. Qed.
  (** so the triplets are in Morton order when the indices fit half the bits of the type *)
  Theorem C100_morton (h : N) E : shift_ok -> (h <= 16)%N -> N.of_nat sitW = (2 ^ (2 * h))%N ->
    Forall (fun e => N.of_nat (row e) < 2 ^ h /\ N.of_nat (col e) < 2 ^ h)%N E ->
    exists A, Coo_to_BlockCoo2 E = Ok A /\
      sorts_stably (fun a b => (morton_key a <= morton_key b)%N) (fun a b => (morton_key a =? morton_key b)%N) (triplet <$> E) (t_triplets A).
  Proof.
    intros Hs Hh Hw HE.
    assert (Hle : (2 ^ h <= 2 ^ 16)%N) by (apply N.pow_le_mono_r; lia).
    assert (Hle2 : (2 ^ h <= 2 ^ (2 * h))%N) by (apply N.pow_le_mono_r; lia).
    assert (HE2 : Forall small_index E) by (eapply Forall_impl; [exact HE|]; intros e [H1 H2]; unfold small_index; split; lia).
    rewrite Coo_to_BlockCoo2_eq by done. eexists. split; [done|]. cbn [t_triplets].
    assert (Hk : Forall (fun e => short_key e = morton_key e) (triplet <$> E)).
    { apply Forall_fmap. eapply Forall_impl; [exact HE|]. intros e [H1 H2]. unfold compose. rewrite (C100_low_bits h) by (cbn [triplet row col]; lia || done). cbn [triplet row col].
      rewrite !N.mod_small by lia. done. }
    assert (Heq : isort compare_morton_short (triplet <$> E) = isort compare_morton (triplet <$> E)).
    { clear -Hk. apply isort_ext. intros a b Ha%elem_of_list_In Hb%elem_of_list_In. rewrite Forall_forall in Hk. pose proof (Hk a Ha) as H1. pose proof (Hk b Hb) as H2.
      unfold short_key, morton_key in H1, H2. unfold compare_morton_short, compare_morton. by rewrite H1, H2. }
    rewrite Heq. destruct (C11_sort_morton (triplet <$> E)) as (E' & HE' & Hst). rewrite sort_triplets_morton_spec in HE'. by injection HE' as <-.
  Qed.
  (** otherwise they are not: elements whose indices are multiples of 2^h all have code 0 and
      stay in the order they came in *)
  Theorem C100_unsorted_refuted (h : N) E : shift_ok -> N.of_nat sitW = (2 ^ (2 * h))%N ->
    Forall (fun e => (N.of_nat (row e) < 2 ^ 16 /\ N.of_nat (col e) < 2 ^ 16 /\ N.of_nat (row e) mod 2 ^ h = 0 /\ N.of_nat (col e) mod 2 ^ h = 0)%N /\ small_index e) E ->
    Coo_to_BlockCoo2 E = Ok (BCoo2 (length E) (triplet <$> E)).
  Proof.
    intros Hs Hw HE. rewrite Coo_to_BlockCoo2_eq; [|done|eapply Forall_impl; [exact HE|]; by intros e [_ ?]]. do 2 f_equal. apply isort_ties.
    assert (Hk : Forall (fun e => short_key e = 0%N) (triplet <$> E)).
    { apply Forall_fmap. eapply Forall_impl; [exact HE|]. intros e [(H1 & H2 & H3 & H4) _]. unfold compose. rewrite (C100_low_bits h) by done. cbn [triplet row col]. by rewrite H3, H4. }
    intros a b Ha Hb. rewrite Forall_forall in Hk. pose proof (Hk a Ha) as H1. pose proof (Hk b Hb) as H2. unfold short_key in H1, H2. unfold compare_morton_short. by rewrite H1, H2.
  Qed.
End C100.
(** 16-bit short indices: (256, 0) is put before (0, 1), which Morton order puts first *)
Theorem C100_uint16_refuted {T} `{Scalar T} `{Widths} (v w : T) : N.of_nat sitW = (2 ^ 16)%N -> sitW < itW ->
  exists A, Coo_to_BlockCoo2 [Elem 0 1 v 0; Elem 256 0 w 0] = Ok A /\ t_triplets A = [Elem 256 0 w 0; Elem 0 1 v 0] /\
    (morton_key (Elem 0 1 v 0) < morton_key (Elem 256 0 w 0))%N.
Proof.
  intros Hw Hlt. assert (H256 : 256 < sitW) by lia. rewrite Coo_to_BlockCoo2_eq.
  2:{ right. split; [done|]. by rewrite Hw. }
  2:{ unfold small_index. repeat constructor; cbn [row col]; lia. }
  eexists. split; [done|]. cbn [t_triplets]. split; [|by vm_compute].
  cbn [fmap list_fmap triplet row col val blk isort insert_]. unfold compare_morton_short, short_interleave. cbn [row col]. rewrite Hw. by vm_compute.
Qed.
(** the harness W16 of the other examples: index type of 256 values, short type of 16; codes of
    2-bit halves *)
Example C100_ex : Coo_to_BlockCoo2 (H0 := ex_W16) [Elem 3 3 1%Z 7; Elem 0 1 2%Z 7; Elem 4 4 3%Z 7; Elem 1 0 4%Z 7] =
  Ok (BCoo2 4 [Elem 4 4 3%Z 0; Elem 1 0 4%Z 0; Elem 0 1 2%Z 0; Elem 3 3 1%Z 0]) /\
  Coo_to_BlockCoo2 (H0 := ex_W16) [Elem 3 3 1%Z 7; Elem 0 16 2%Z 7] = Abort.
Proof. by vm_compute. Qed.
