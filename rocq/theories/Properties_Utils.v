(** Properties_Utils.v: C01-C14, the helper functions.
    Every theorem is stated with the definitions of Words.v / Utils.v / Sort.v
    (the models) and of Spec.v / SortSpec.v (what is meant); every example below
    a theorem shows a non-trivial case that meets its hypotheses. *)
From Verif Require Import WordsProof SortProof UtilsProof.

(** The index types /repo is compiled with (include/params.h:12-16). *)
Definition default_widths : Widths := {| itW := N.to_nat (2 ^ 32); sitW := N.to_nat (2 ^ 16) |}.

(** ** C01 *)
Theorem C01_next_power_of_two (n : N) : (n < 2 ^ 64)%N ->
  ((1 <= n <= 2 ^ 63)%N ->
     exists k, next_power_of_two n = (2 ^ k)%N /\ (n <= 2 ^ k)%N /\ forall j, (n <= 2 ^ j)%N -> (2 ^ k <= 2 ^ j)%N) /\
  (n = 0%N \/ (2 ^ 63 < n)%N -> next_power_of_two n = 0%N).
Proof.
  intros Hn. split.
  - intros H1. destruct (npot_spec n H1) as (k & Hk & _ & Hle & Hmin). exists k. split; [done|]. split; [done|].
    intros j Hj. apply N.pow_le_mono_r; [done|]. destruct Hmin as [->|Hmin]; [lia|].
    destruct (N.le_gt_cases k j); [done|]. exfalso.
    assert (2 ^ j <= 2 ^ (k - 1))%N by (apply N.pow_le_mono_r; lia). lia.
  - intros [->|H1]; [exact npot_0|]. apply npot_overflow. lia.
Qed.
Example C01_ex : (1 <= 1000 <= 2 ^ 63)%N /\ next_power_of_two 1000 = 1024%N /\ next_power_of_two 1024 = 1024%N
  /\ next_power_of_two (2 ^ 63 + 1) = 0%N.
Proof. repeat split; vm_compute; done. Qed.

(** ** C02 *)
Theorem C02_highest_bit_set :
  (forall v, (0 < v < 2 ^ 64)%N -> (2 ^ highest_bit_set64 v <= v < 2 ^ (highest_bit_set64 v + 1))%N) /\
  (forall v, (0 < v < 2 ^ 32)%N -> (2 ^ highest_bit_set32 v <= v < 2 ^ (highest_bit_set32 v + 1))%N) /\
  highest_bit_set64 0 = 0%N /\ highest_bit_set32 0 = 0%N /\
  (forall v, (- 2 ^ 63 <= v < 2 ^ 63)%Z ->
     (highest_bit_set_i64 v = -1 <-> v < 0)%Z /\ ((0 <= v)%Z -> highest_bit_set_i64 v = Z.of_N (highest_bit_set64 (Z.to_N v)))) /\
  (forall v, (- 2 ^ 31 <= v < 2 ^ 31)%Z ->
     (highest_bit_set_int v = -1 <-> v < 0)%Z /\ ((0 <= v)%Z -> highest_bit_set_int v = Z.of_N (highest_bit_set32 (Z.to_N v)))).
Proof.
  split; [exact hbs64_spec|]. split; [exact hbs32_spec|]. split; [done|]. split; [done|].
  split; intros v _; unfold highest_bit_set_i64, highest_bit_set_int; destruct (Z.ltb_spec v 0); split; try lia; try done; split; try lia.
Qed.
Example C02_ex : highest_bit_set64 (2 ^ 63) = 63%N /\ highest_bit_set32 1000 = 9%N /\ highest_bit_set_int (-5) = (-1)%Z.
Proof. by vm_compute. Qed.

(** ** C03 *)
Theorem C03_bit_interleave (r c r' c' : N) :
  (r < 2 ^ 16)%N -> (c < 2 ^ 16)%N -> (r' < 2 ^ 16)%N -> (c' < 2 ^ 16)%N ->
  (forall k, N.testbit (bit_interleave r c) (2 * k) = N.testbit r k /\
             N.testbit (bit_interleave r c) (2 * k + 1) = N.testbit c k) /\
  (bit_interleave r c = bit_interleave r' c' -> r = r' /\ c = c') /\
  (r <= r' -> c <= c' -> r < r' \/ c < c' -> bit_interleave r c < bit_interleave r' c')%N.
Proof.
  intros H1 H2 H3 H4. split; [intros k; by apply interleave_bits|].
  split; [by apply interleave_inj|by apply interleave_mono].
Qed.
(** beyond 16 bits different indices collide *)
Theorem C03_wide_indices_collide_refuted :
  ~ (forall r c r' c' : N, (r < 2 ^ 32 -> c < 2 ^ 32 -> r' < 2 ^ 32 -> c' < 2 ^ 32)%N ->
       bit_interleave r c = bit_interleave r' c' -> r = r' /\ c = c').
Proof. intros Hall. destruct (Hall 0 0 (2 ^ 24) 0)%N as [Hf _]; [done|by vm_compute|done]. Qed.
Example C03_ex : bit_interleave 3 5 = 39%N /\ (3 < 2 ^ 16)%N /\ (5 < 2 ^ 16)%N.
Proof. by vm_compute. Qed.

(** ** C04.  [logbeta] is whatever the floating-point expression yields.  [big_enough]
    is the size requirement: at least 8 * workers after rounding up to a power of
    two, and not over the range of a shift of int. *)
Definition big_enough (workers : Z) (m : N) : Prop :=
  if decide (1 < workers)%Z then (m <= 2 ^ 30)%N /\ (8 * workers < 2 ^ Z.of_N (N.log2_up m))%Z
  else (2 < m <= 2 ^ 31)%N.
Theorem C04_pick_block_size (fuel : nat) (logbeta rows columns val_size : N) (workers : Z) :
  (rows < 2 ^ 32)%N -> (columns < 2 ^ 32)%N -> (val_size <= 2 ^ 18)%N -> (1 <= workers < 2 ^ 28)%Z -> 64 <= fuel ->
  exists s, pick_block_size fuel logbeta rows columns val_size workers = Ok s /\
    (s = 0%N /\ ~ (big_enough workers rows /\ big_enough workers columns) \/
     big_enough workers rows /\ big_enough workers columns /\ exists k, s = (2 ^ k)%N /\ (s < rows)%N /\ (s < columns)%N).
Proof.
  intros H1 H2 H3 H4 H5. apply wp_exists. eapply wp_mono; [by apply pick_block_size_spec|].
  intros s [Hs|(Hs1 & Hs2 & k & Hk & Hk1 & Hk2 & _)]; [by left|right]. split; [done|]. split; [done|]. by exists k.
Qed.
Example C04_ex : pick_block_size 64 10 5000 7000 8 4 = Ok 256%N /\ pick_block_size 64 10 10 10 8 4 = Ok 0%N
  /\ big_enough 4 5000 /\ big_enough 4 7000.
Proof. by vm_compute. Qed.

(** ** C77: the block size itself.  Each constraint is one that the code's comments name:
    the bits of a row and of a column of a block fit an index together (maxbits), 4 times the fourth root of
    rows * columns (logbeta), at least 8 * workers block rows, at least 2 block columns, and the
    vectors of a block in the L2 cache. *)
Theorem C77_constraints (fuel : nat) (logbeta rows columns val_size : N) (workers : Z) (s : N) :
  (rows < 2 ^ 32)%N -> (columns < 2 ^ 32)%N -> (val_size <= 2 ^ 18)%N -> (1 <= workers < 2 ^ 28)%Z -> 64 <= fuel ->
  pick_block_size fuel logbeta rows columns val_size workers = Ok s -> s <> 0%N ->
  (s <= 32768)%N /\ (s <= 2 ^ logbeta)%N /\
  ((1 < workers)%Z -> (8 * Z.to_N workers * s <= 2 ^ N.log2_up rows)%N /\ (4 * Z.to_N workers <= rows / s)%N) /\
  (2 * s <= 2 ^ N.log2_up rows)%N /\ (2 * s <= 2 ^ N.log2_up columns)%N /\
  ((val_size <= 8)%N -> (s * val_size <= 256 * 1024)%N).
Proof.
  intros H1 H2 H3 H4 H5 Hs Hz. pose proof (pick_block_size_spec fuel logbeta rows columns val_size workers H1 H2 H3 H4 H5) as Hp.
  rewrite Hs in Hp. cbn [wp] in Hp. destruct Hp as [[? _]|(_ & _ & k & -> & Hm & Hn & K1 & K2 & K3 & K4 & _)]; [done|].
  assert (Hk : (2 ^ k <= 2 ^ 15)%N) by (apply N.pow_le_mono_r; [done|exact K1]). change (2 ^ 15)%N with 32768%N in Hk.
  assert (Hpos : (0 < 2 ^ k)%N) by (apply N.neq_0_lt_0, N.pow_nonzero; done).
  assert (Hdouble : forall d, (k + 1 <= d)%N -> (2 * 2 ^ k <= 2 ^ d)%N).
  { intros d Hd. rewrite <- N.pow_succ_r'. apply N.pow_le_mono_r; [done|]. clear -Hd. lia. }
  assert (Hhb : (1 <= high_bits workers)%N).
  { unfold high_bits. destruct (Z.ltb_spec 1 workers) as [Hw|]; [|done]. change 1%N with (N.log2_up 2). apply N.log2_up_le_mono. clear -Hw. lia. }
  split; [done|]. split; [by apply N.pow_le_mono_r|]. split; [|split; [|split]].
  - intros Hw. unfold high_bits in K3. rewrite (proj2 (Z.ltb_lt 1 workers) Hw) in K3.
    replace (Z.to_N (8 * workers)) with (8 * Z.to_N workers)%N in K3 by (clear -Hw; lia).
    set (W := (8 * Z.to_N workers)%N) in *. assert (HW : (1 < W)%N) by (unfold W; clear -Hw; lia).
    destruct (N.log2_up_spec W HW) as [_ HWs].
    assert (Hprod : (W * 2 ^ k <= 2 ^ N.log2_up rows)%N).
    { transitivity (2 ^ (k + N.log2_up W))%N; [|by apply N.pow_le_mono_r].
      rewrite N.pow_add_r, (N.mul_comm (2 ^ k)). by apply N.mul_le_mono_r. }
    split; [done|]. apply N.div_le_lower_bound; [clear -Hpos; lia|].
    destruct (N.log2_up_spec rows) as [Hlo _]; [clear -Hm Hpos; lia|]. rewrite <- N.sub_1_r in Hlo.
    assert (Hl : (2 ^ N.log2_up rows = 2 * 2 ^ (N.log2_up rows - 1))%N).
    { rewrite <- N.pow_succ_r'. f_equal. clear -K3 HWs HW. assert (N.log2_up W <> 0)%N; [|lia]. intros E. rewrite E in HWs. change (2 ^ 0)%N with 1%N in HWs. lia. }
    rewrite Hl in Hprod. unfold W in *. clear -Hprod Hlo. lia.
  - apply Hdouble. clear -K3 Hhb. lia.
  - by apply Hdouble.
  - intros Hv. clear -Hv Hk. nia.
Qed.
(** and for values of up to 8 bytes nothing but these constraints makes it smaller *)
Theorem C77_largest (fuel : nat) (logbeta rows columns val_size : N) (workers : Z) (s : N) :
  (rows < 2 ^ 32)%N -> (columns < 2 ^ 32)%N -> (val_size <= 8)%N -> (1 <= workers < 2 ^ 28)%Z -> 64 <= fuel ->
  pick_block_size fuel logbeta rows columns val_size workers = Ok s -> s <> 0%N ->
  let fits t := (t <= 32768 /\ t <= 2 ^ logbeta /\ (if (1 <? workers)%Z then 8 * Z.to_N workers * t else 2 * t) <= 2 ^ N.log2_up rows /\ 2 * t <= 2 ^ N.log2_up columns)%N in
  fits s /\ ~ fits (2 * s)%N.
Proof.
  intros H1 H2 H3 H4 H5 Hs Hz. assert (H3' : (val_size <= 2 ^ 18)%N) by (clear -H3; lia).
  destruct (C77_constraints fuel logbeta rows columns val_size workers s H1 H2 H3' H4 H5 Hs Hz) as (C1 & C2 & C3 & C4 & C5 & _).
  pose proof (pick_block_size_spec fuel logbeta rows columns val_size workers H1 H2 H3' H4 H5) as Hp.
  rewrite Hs in Hp. cbn [wp] in Hp. destruct Hp as [[? _]|(_ & _ & k & -> & Hm & Hn & K1 & K2 & K3 & K4 & K5)]; [done|]. specialize (K5 H3).
  intros fits. subst fits. split.
  { split; [done|]. split; [done|]. split; [|done]. destruct (Z.ltb_spec 1 workers) as [Hw|]; [by apply C3|done]. }
  intros (F1 & F2 & F3 & F4). rewrite <- N.pow_succ_r' in *.
  assert (Hpw : forall a b, (2 ^ a <= 2 ^ b)%N -> (a <= b)%N) by (intros a b; apply N.pow_le_mono_r_iff; done).
  change 32768%N with (2 ^ 15)%N in F1. apply Hpw in F1, F2. rewrite <- N.pow_succ_r' in F4. apply Hpw in F4.
  assert (F5 : (N.succ k + high_bits workers <= N.log2_up rows)%N).
  { unfold high_bits. destruct (Z.ltb_spec 1 workers) as [Hw|Hw].
    - replace (Z.to_N (8 * workers)) with (8 * Z.to_N workers)%N by (clear -Hw; lia).
      set (W := (8 * Z.to_N workers)%N) in *. assert (HW : (1 < W)%N) by (unfold W; clear -Hw; lia).
      destruct (N.log2_up_spec W HW) as [HWs _]. rewrite <- N.sub_1_r in HWs.
      assert (Hlt : (2 ^ (N.log2_up W - 1 + N.succ k) < 2 ^ N.log2_up rows)%N).
      { eapply N.lt_le_trans; [|exact F3]. rewrite N.pow_add_r. apply N.mul_lt_mono_pos_r; [|exact HWs]. apply N.neq_0_lt_0, N.pow_nonzero; done. }
      apply N.pow_lt_mono_r_iff in Hlt; [|done]. clear -Hlt. lia.
    - rewrite <- N.pow_succ_r' in F3. apply Hpw in F3. clear -F3. lia. }
  clear -F1 F2 F4 F5 K5. lia.
Qed.
Example C77_ex : pick_block_size 64 10 5000 7000 8 4 = Ok 256%N /\ pick_block_size 64 15 (2 ^ 22) (2 ^ 22) 4 4 = Ok 32768%N /\
  pick_block_size 64 10 (2 ^ 22) (2 ^ 22) 4 4 = Ok 1024%N.
Proof. by vm_compute. Qed.

(** ** C05.  The drivers (src/drivers/blocked.cpp:92, bench.cpp:44, src/test/result.cpp:48) pass the
    size on to the constant-size blocking. *)
Definition blocking_of_picked_size `{Widths} (fuel : nat) (logbeta rows columns val_size : N) (workers : Z) :
    outcome (nat * arr nat) :=
  s ← pick_block_size fuel logbeta rows columns val_size workers;
  const_offsets (N.to_nat rows) (N.to_nat s).
Theorem C05_picked_size_divides_by_zero_refuted `{Widths} (fuel : nat) (logbeta rows columns val_size : N) (workers : Z) :
  (rows < 2 ^ 32)%N -> (columns < 2 ^ 32)%N -> (val_size <= 2 ^ 18)%N -> (1 <= workers < 2 ^ 28)%Z -> 64 <= fuel ->
  ~ (big_enough workers rows /\ big_enough workers columns) ->
  blocking_of_picked_size fuel logbeta rows columns val_size workers = Undef DivByZero.
Proof.
  intros H1 H2 H3 H4 H5 Hn.
  destruct (C04_pick_block_size fuel logbeta rows columns val_size workers) as (s & Hs & [[-> _]|(Hr & Hc & _)]); try done.
  - unfold blocking_of_picked_size. by rewrite Hs.
  - by destruct Hn.
Qed.
(** and this is the only way it can: otherwise the blocking is produced *)
Theorem C05_otherwise_blocking `{Widths} (fuel : nat) (logbeta rows columns val_size : N) (workers : Z) :
  (rows < 2 ^ 32)%N -> (columns < 2 ^ 32)%N -> (val_size <= 2 ^ 18)%N -> (1 <= workers < 2 ^ 28)%Z -> 64 <= fuel ->
  N.to_nat rows + 2 < itW ->
  big_enough workers rows /\ big_enough workers columns ->
  exists nb off, blocking_of_picked_size fuel logbeta rows columns val_size workers = Ok (nb, full off) /\
    blocking off nb (N.to_nat rows).
Proof.
  intros H1 H2 H3 H4 H5 Hw [Hr Hc].
  destruct (C04_pick_block_size fuel logbeta rows columns val_size workers) as (s & Hs & [[_ Hn]|(_ & _ & k & -> & _)]); try done.
  - by destruct Hn.
  - assert (0 < N.to_nat (2 ^ k)) by (assert (2 ^ k <> 0)%N by (by apply N.pow_nonzero); lia).
    unfold blocking_of_picked_size. rewrite Hs. cbn [mbind outcome_bind]. rewrite const_offsets_spec by done.
    eexists _, _. split; [done|]. by apply const_off_blocking.
Qed.
Example C05_ex : ~ (big_enough 4 10 /\ big_enough 4 10) /\ big_enough 4 5000.
Proof. split; [intros [[_ Hf] _]; by vm_compute in Hf|by vm_compute]. Qed.

(** ** C06 *)
Theorem C06_index_to_blockindex `{Widths} (off : list nat) (nb n i : nat) :
  blocking off nb n -> i < n -> nb < itW ->
  exists b, index_to_blockindex (full off) nb i = Ok b /\ b < nb /\ in_block off b i /\
    forall b', b' < nb -> in_block off b' i -> b' = b.
Proof.
  intros Ho Hi Hw. exists (block_of off nb i). destruct (block_of_spec off nb n i Ho Hi) as [H1 H2].
  split; [by eapply index_to_blockindex_spec|]. split; [done|]. split; [done|].
  intros b' Hb Hin. by eapply in_block_unique.
Qed.
Example C06_ex : blocking [0; 2; 2; 5; 9] 4 9 /\
  @index_to_blockindex {| itW := 100; sitW := 10 |} (full [0; 2; 2; 5; 9]) 4 2 = Ok 2.
Proof. split; [|done]. split; [done|]. split; [done|]. split; [done|]. intros b Hb. do 4 (destruct b as [|b]; [simpl; lia|]). lia. Qed.

(** ** C07 *)
Theorem C07_size_to_offset `{Widths} (sizes : list nat) (old : arr nat) :
  length old = S (length sizes) -> sum_list sizes < itW ->
  exists off, size_to_offset old (full sizes) (length sizes) = Ok (full off) /\
    length off = S (length sizes) /\ forall k, k <= length sizes -> nth k off 0 = sum_list (take k sizes).
Proof.
  intros Hl Hs. eexists. split; [by apply size_to_offset_spec|]. split; [by rewrite fmap_length, seq_length|].
  intros k Hk. rewrite (nth_lookup_Some _ k 0 (sum_list (take k sizes))); [done|].
  rewrite list_lookup_fmap, lookup_seq_lt by lia. done.
Qed.
(** with non-negative sizes it is a blocking of the total *)
Theorem C07_blocking `{Widths} (sizes : list nat) (old : arr nat) :
  length old = S (length sizes) -> sum_list sizes < itW ->
  exists off, size_to_offset old (full sizes) (length sizes) = Ok (full off) /\ blocking off (length sizes) (sum_list sizes).
Proof.
  intros Hl Hs. destruct (C07_size_to_offset sizes old Hl Hs) as (off & Ho & Hlen & Hn). exists off. split; [done|].
  split; [done|]. split; [by rewrite Hn by lia|]. split; [rewrite Hn by lia; by rewrite take_ge|].
  intros b Hb. rewrite !Hn by lia. destruct (lookup_lt_is_Some_2 sizes b Hb) as [s Hsb].
  rewrite (take_S_r _ _ _ Hsb). pose proof (sum_list_with_app id (take b sizes) [s]) as Ha. rewrite Ha. apply Nat.le_add_r.
Qed.
Example C07_ex : @size_to_offset {| itW := 100; sitW := 10 |} (new_arr 4) (full [3; 0; 5]) 3 = Ok (full [0; 3; 3; 8]).
Proof. done. Qed.

(** ** C08 *)
Theorem C08_constant_blocking `{Widths} (dim size : nat) :
  0 < size -> dim + 2 < itW ->
  exists nb off, const_offsets dim size = Ok (nb, full off) /\
    nb = Nat.max 1 (dim / size) /\ blocking off nb dim /\
    (forall b, S b < nb -> nth (S b) off 0 - nth b off 0 = size) /\
    (size <= dim -> size <= nth nb off 0 - nth (nb - 1) off 0 < 2 * size) /\
    (dim < size -> nb = 1).
Proof.
  intros Hs Hd. exists (const_nb dim size), (const_off dim size).
  pose proof (const_nb_pos dim size) as Hp.
  split; [by apply const_offsets_spec|]. split.
  { unfold const_nb. generalize (dim / size). intros q. destruct (Nat.eqb_spec q 0); lia. }
  split; [by apply const_off_blocking|]. split; [|split].
  - intros b Hb. rewrite const_off_sizes by lia. by rewrite (proj2 (Nat.eqb_neq _ _)) by lia.
  - intros Hle. rewrite !const_off_nth by lia. rewrite Nat.eqb_refl, (proj2 (Nat.eqb_neq _ _)) by lia. by apply const_last.
  - intros Hlt. unfold const_nb. by rewrite Nat.div_small.
Qed.
Example C08_ex : @const_offsets {| itW := 100; sitW := 10 |} 11 3 = Ok (3, full [0; 3; 6; 11]).
Proof. done. Qed.

(** ** C09, C10 *)
Theorem C09_parallel_stable_sort {V} (c : V -> V -> bool) (merge_cut_off sort_cut_off : nat) (l : list V) (b z : buf) (alloc_ok : bool) :
  swo c -> 2 <= merge_cut_off -> 1 <= sort_cut_off -> b <> z ->
  exists l', run (parallel_stable_sort c merge_cut_off sort_cut_off alloc_ok b z (length l)) (heap_of b l) = Ok (tt, heap_of b l') /\
    StronglySorted (fun x y => c y x = false) l' /\ l' ≡ₚ l /\
    forall v, bfilter (equivb c v) l' = bfilter (equivb c v) l.
Proof.
  intros Hc Hm Hs Hbz. exists (isort c l). split.
  - unfold heap_of at 1. rewrite sort_run; try done.
    + f_equal. f_equal. unfold heap_of. rewrite hset_hset; [done|]. by rewrite isort_length.
    + intros i Hi. rewrite hset_lookup. destruct (decide _) as [[Heq _]|]; [simpl in Heq; congruence|]. apply lookup_empty.
    + apply harr_hset.
  - destruct (isort_stable_sort_of c Hc l) as (H1 & H2 & H3). done.
Qed.
Theorem C10_parallel_sort_schedules {V} (c : V -> V -> bool) (merge_cut_off sort_cut_off : nat) (l : list V) (b z : buf) (alloc_ok : bool) :
  swo c -> 2 <= merge_cut_off -> 1 <= sort_cut_off -> b <> z ->
  exists l', all_schedules (parallel_stable_sort c merge_cut_off sort_cut_off alloc_ok b z (length l)) (heap_of b l) tt (heap_of b l') /\
    stable_sort_of c l l'.
Proof.
  intros Hc Hm Hs Hbz. exists (isort c l). split; [|by apply isort_stable_sort_of].
  assert (Hh : heap_of b (isort c l) = hset b 0 (isort c l) (heap_of b l)).
  { unfold heap_of. rewrite hset_hset; [done|]. by rewrite isort_length. }
  rewrite Hh. apply sort_all_schedules; try done.
  - intros i Hi. unfold heap_of. rewrite hset_lookup. destruct (decide _) as [[Heq _]|]; [simpl in Heq; congruence|]. apply lookup_empty.
  - apply harr_hset.
Qed.
(** the result does not depend on the cut-offs nor on whether memory could be had *)
Theorem C09_cut_offs_and_fallback_agree {V} (c : V -> V -> bool) (m1 s1 m2 s2 : nat) (l : list V) (b z : buf) (ok1 ok2 : bool) :
  swo c -> 2 <= m1 -> 1 <= s1 -> 2 <= m2 -> 1 <= s2 -> b <> z ->
  run (parallel_stable_sort c m1 s1 ok1 b z (length l)) (heap_of b l) =
  run (parallel_stable_sort c m2 s2 ok2 b z (length l)) (heap_of b l).
Proof.
  intros Hc H1 H2 H3 H4 Hbz.
  assert (Hf : all_free z (length l) (heap_of b l)).
  { intros i Hi. unfold heap_of. rewrite hset_lookup. destruct (decide _) as [[Heq _]|]; [simpl in Heq; congruence|]. apply lookup_empty. }
  rewrite !sort_run; try done; apply harr_hset.
Qed.
Example C09_ex : swo Nat.ltb /\ 2 <= MERGE_CUT_OFF /\ 1 <= SORT_CUT_OFF /\
  (fun '(_, h) => read_back h [false] 0 7) <$> 
    match run (parallel_stable_sort Nat.ltb 2 1 true [false] [true] 7) (heap_of [false] [3; 1; 2; 9; 0; 1; 5]) with
    | Ok r => Some r | _ => None end = Some (Ok [0; 1; 1; 2; 3; 5; 9]).
Proof.
  split; [apply (swo_bykey (fun x : nat => x))|]. split; [apply Nat.leb_le; by vm_compute|].
  split; [apply Nat.leb_le; by vm_compute|]. by vm_compute.
Qed.

(** ** C11 *)
Section C11.
  Context {T : Type}.
  Implicit Types E : list (elem T).
  Definition row_major_le (a b : elem T) : Prop := row a < row b \/ row a = row b /\ col a <= col b.
  Definition col_major_le (a b : elem T) : Prop := col a < col b \/ col a = col b /\ row a <= row b.
  Definition morton_key (e : elem T) : N := bit_interleave (N.of_nat (row e)) (N.of_nat (col e)).
  Definition wide_row_le (w : nat) (a b : elem T) : Prop :=
    row a / w < row b / w \/ row a / w = row b / w /\ col_major_le a b.
  Definition block_le (a b : elem T) : Prop := blk a < blk b \/ blk a = blk b /\ row_major_le a b.
  (** two elements that precede each other are ties *)
  Definition sorts_stably (le : elem T -> elem T -> Prop) (tie : elem T -> elem T -> bool) E E' : Prop :=
    StronglySorted le E' /\ E' ≡ₚ E /\ forall e, bfilter (tie e) E' = bfilter (tie e) E.

  Lemma sorts_intro (c : elem T -> elem T -> bool) (le : elem T -> elem T -> Prop) (tie : elem T -> elem T -> bool) E :
    swo c -> (forall a b, c b a = false -> le a b) -> (forall a b, tie a b = equivb c a b) ->
    sorts_stably le tie E (isort c E).
  Proof.
    intros Hc Hle Ht. destruct (isort_stable_sort_of c Hc E) as (H1 & H2 & H3). split; [|split; [done|]].
    - clear H2 H3. induction H1 as [|a l Hs IH Hf]; constructor; [exact IH|].
      eapply Forall_impl; [exact Hf|]. intros b Hb. by apply Hle.
    - intros e. specialize (H3 e).
      assert (Hext : forall l, bfilter (tie e) l = bfilter (equivb c e) l).
      { induction l as [|a l IH]; [done|]. cbn. rewrite Ht, IH. done. }
      by rewrite !Hext.
  Qed.
  Ltac cmp := repeat match goal with
    | |- context [?a <? ?b] => destruct (Nat.ltb_spec a b)
    | |- context [?a =? ?b] => destruct (Nat.eqb_spec a b)
    | H : context [?a <? ?b] |- _ => destruct (Nat.ltb_spec a b)
    | H : context [?a =? ?b] |- _ => destruct (Nat.eqb_spec a b)
    end.
  Theorem C11_sort_triplets (row_major : bool) E :
    exists E', sort_triplets row_major E = Ok E' /\
      sorts_stably (if row_major then row_major_le else col_major_le) (fun a b => (row a =? row b) && (col a =? col b)) E E'.
  Proof.
    eexists. split; [apply sort_triplets_spec|]. apply sorts_intro.
    - destruct row_major; [apply swo_compare_row|apply swo_compare_col].
    - intros a b. destruct row_major; unfold compare_row, compare_col, row_major_le, col_major_le; cmp; simpl; try done; lia.
    - intros a b. unfold equivb. destruct row_major; unfold compare_row, compare_col; cmp; simpl; try done; lia.
  Qed.
  Theorem C11_sort_morton E :
    exists E', sort_triplets_morton E = Ok E' /\
      sorts_stably (fun a b => (morton_key a <= morton_key b)%N) (fun a b => (morton_key a =? morton_key b)%N) E E'.
  Proof.
    eexists. split; [apply sort_triplets_morton_spec|]. apply sorts_intro; [apply swo_compare_morton| |].
    - intros a b. unfold compare_morton, morton_key. destruct (N.ltb_spec (bit_interleave (N.of_nat (row b)) (N.of_nat (col b))) (bit_interleave (N.of_nat (row a)) (N.of_nat (col a)))); [done|]. done.
    - intros a b. unfold equivb, compare_morton, morton_key.
      generalize (bit_interleave (N.of_nat (row a)) (N.of_nat (col a))) (bit_interleave (N.of_nat (row b)) (N.of_nat (col b))). intros p q.
      destruct (N.ltb_spec p q), (N.ltb_spec q p), (N.eqb_spec p q); simpl; try done; lia.
  Qed.
  Theorem C11_sort_widerows E (w : nat) : 0 < w ->
    exists E', sort_triplets_widerows E w = Ok E' /\
      sorts_stably (wide_row_le w) (fun a b => (row a =? row b) && (col a =? col b)) E E'.
  Proof.
    intros Hw. eexists. split; [by apply sort_triplets_widerows_spec|]. apply sorts_intro; [apply swo_compare_widerows| |].
    - intros a b. unfold compare_widerows, wide_row_le, col_major_le. cmp; simpl; try done; lia.
    - intros a b. unfold equivb, compare_widerows. cmp; simpl; try done; try lia.
      all: exfalso; congruence.
  Qed.
  Theorem C11_sort_elements_blocks E :
    exists E', sort_elements_blocks E = Ok E' /\
      sorts_stably block_le (fun a b => (blk a =? blk b) && (row a =? row b) && (col a =? col b)) E E'.
  Proof.
    eexists. split; [apply sort_elements_blocks_spec|]. apply sorts_intro; [apply swo_compare_blocks| |].
    - intros a b. unfold compare_blocks, block_le, row_major_le. cmp; simpl; try done; lia.
    - intros a b. unfold equivb, compare_blocks. cmp; simpl; try done; lia.
  Qed.
End C11.
Definition ex_elems : list (elem Z) :=
  [Elem 2 1 5%Z 3; Elem 0 3 7%Z 1; Elem 2 0 1%Z 3; Elem 0 3 2%Z 1; Elem 1 1 4%Z 0].
Example C11_ex :
  sort_triplets true ex_elems = Ok [Elem 0 3 7%Z 1; Elem 0 3 2%Z 1; Elem 1 1 4%Z 0; Elem 2 0 1%Z 3; Elem 2 1 5%Z 3] /\
  sort_elements_blocks ex_elems = Ok [Elem 1 1 4%Z 0; Elem 0 3 7%Z 1; Elem 0 3 2%Z 1; Elem 2 0 1%Z 3; Elem 2 1 5%Z 3].
Proof. rewrite sort_triplets_spec, sort_elements_blocks_spec. by vm_compute. Qed.

(** ** C12: whatever the matrix, as soon as there is a block row *)
Theorem C12_sort_triplets_blocks_refuted `{Widths} {T} (E : list (elem T)) (roff : list nat) (blockrows : nat) (coff : arr nat) (blockcols rows : nat) :
  blocking roff blockrows rows -> 0 < blockrows -> Forall (fun e => row e < rows) E ->
  sort_triplets_blocks E (full roff) blockrows coff blockcols = Undef OutOfBounds.
Proof. intros H1 H2 H3. by eapply sort_triplets_blocks_oob. Qed.
Example C12_ex : blocking [0; 2; 4] 2 4 /\ Forall (fun e : elem Z => row e < 4) ex_elems.
Proof.
  split; [|repeat constructor; simpl; lia]. split; [done|]. split; [done|]. split; [done|].
  intros b Hb. do 2 (destruct b as [|b]; [simpl; lia|]). lia.
Qed.

(** ** C13 *)
Theorem C13_count_blocks `{Widths} {T} (E : list (elem T)) :
  E <> [] -> length E < itW -> StronglySorted (fun a b => blk a <= blk b) E ->
  exists n, count_blocks E = Ok n /\ distinct_count (blk <$> E) n.
Proof. intros H1 H2 H3. apply wp_exists. by apply count_blocks_spec. Qed.
Theorem C13_count_nnz_rows `{Widths} {T} (E : list (elem T)) :
  E <> [] -> length E < itW ->
  count_nnz_rows E = Ok (runs (row <$> E)) /\
  (StronglySorted (fun a b => row a <= row b) E -> distinct_count (row <$> E) (runs (row <$> E))).
Proof.
  intros H1 H2. split; [by apply count_nnz_rows_runs|]. intros H3.
  pose proof (count_nnz_rows_spec E H1 H2 H3) as Hw. rewrite count_nnz_rows_runs in Hw by done. exact Hw.
Qed.
Theorem C13_empty_refuted `{Widths} {T} :
  count_blocks (@nil (elem T)) = Undef OutOfBounds /\ count_nnz_rows (@nil (elem T)) = Undef OutOfBounds.
Proof. exact count_empty. Qed.
Example C13_ex : let W := {| itW := 100; sitW := 10 |} in
  let E := [Elem 1 1 4%Z 0; Elem 0 3 7%Z 1; Elem 0 3 2%Z 1; Elem 2 0 1%Z 3; Elem 2 1 5%Z 3] in
  StronglySorted (fun a b => blk a <= blk b) E /\ count_blocks E = Ok 3 /\ count_nnz_rows E = Ok 3.
Proof. split; [|by vm_compute]. repeat constructor; simpl; lia. Qed.

(** ** C14 *)
Theorem C14_block_ids `{Widths} {T} (E : list (elem T)) (roff coff : list nat) (blockrows blockcols rows columns : nat) :
  blocking roff blockrows rows -> blocking coff blockcols columns -> in_range rows columns E ->
  blockrows < itW -> blockcols < itW -> blockrows * blockcols <= itW ->
  exists E', calculate_block_id E (full roff) blockrows (full coff) blockcols = Ok E' /\
    coords <$> E' = coords <$> E /\
    (forall e, e ∈ E' -> in_block roff (blk e / blockcols) (row e) /\ blk e / blockcols < blockrows /\
                         in_block coff (blk e mod blockcols) (col e) /\ blk e mod blockcols < blockcols) /\
    (forall e1 e2, e1 ∈ E' -> e2 ∈ E' ->
       (blk e1 = blk e2 <->
        (exists br bc, br < blockrows /\ bc < blockcols /\ in_block roff br (row e1) /\ in_block roff br (row e2) /\
                       in_block coff bc (col e1) /\ in_block coff bc (col e2)))).
Proof.
  intros Hr Hc Hin Hw1 Hw2 Hw3. exists (with_ids roff blockrows coff blockcols E).
  split; [by eapply calculate_block_id_spec|].
  split. { unfold with_ids. rewrite <- list_fmap_compose. done. }
  assert (Hq : forall e, e ∈ with_ids roff blockrows coff blockcols E ->
    (in_block roff (blk e / blockcols) (row e) /\ blk e / blockcols < blockrows /\
     in_block coff (blk e mod blockcols) (col e) /\ blk e mod blockcols < blockcols)).
  { intros e He. apply elem_of_list_fmap in He as (e0 & -> & He0). cbn.
    assert (row e0 < rows /\ col e0 < columns) as [Hr0 Hc0].
    { unfold in_range in Hin. rewrite Forall_forall in Hin. by apply Hin. }
    destruct (block_id_div roff blockrows coff blockcols columns e0 Hc Hc0) as [-> ->].
    destruct (block_of_spec roff blockrows rows (row e0) Hr Hr0), (block_of_spec coff blockcols columns (col e0) Hc Hc0). done. }
  split; [done|].
  intros e1 e2 He1 He2. pose proof (Hq e1 He1) as (A1 & A2 & A3 & A4). pose proof (Hq e2 He2) as (B1 & B2 & B3 & B4). split.
  - intros Heq. exists (blk e1 / blockcols), (blk e1 mod blockcols). rewrite <- Heq in B1, B3. done.
  - intros (br & bc & H1 & H2 & H3 & H4 & H5 & H6).
    rewrite (Nat.div_mod (blk e1) blockcols), (Nat.div_mod (blk e2) blockcols) by lia.
    f_equal; [f_equal|].
    + transitivity br; [by apply (in_block_unique roff blockrows rows _ _ (row e1))|by apply (in_block_unique roff blockrows rows _ _ (row e2))].
    + transitivity bc; [by apply (in_block_unique coff blockcols columns _ _ (col e1))|by apply (in_block_unique coff blockcols columns _ _ (col e2))].
Qed.
(** without room for blockrows * blockcols the ids collide: two rows of blocks, 16 possible ids *)
Theorem C14_overflow_refuted : exists (W : Widths) (E : list (elem Z)) roff coff E',
  blocking roff 5 5 /\ blocking coff 4 4 /\ in_range 5 4 E /\ 5 < itW /\
  calculate_block_id E (full roff) 5 (full coff) 4 = Ok E' /\
  blk <$> E' = [0; 0] /\ row <$> E = [0; 4].
Proof.
  exists {| itW := 16; sitW := 4 |}, [Elem 0 0 1%Z 0; Elem 4 0 1%Z 0], [0;1;2;3;4;5], [0;1;2;3;4],
    [Elem 0 0 1%Z 0; Elem 4 0 1%Z 0].
  split. { split; [done|]. split; [done|]. split; [done|]. intros b Hb. do 5 (destruct b as [|b]; [simpl; lia|]). lia. }
  split. { split; [done|]. split; [done|]. split; [done|]. intros b Hb. do 4 (destruct b as [|b]; [simpl; lia|]). lia. }
  split; [repeat constructor|]. split; [simpl; lia|]. done.
Qed.
Example C14_ex : let W := {| itW := 100; sitW := 10 |} in
  calculate_block_id ex_elems (full [0; 2; 4]) 2 (full [0; 1; 2; 4]) 3 =
  Ok [Elem 2 1 5%Z 4; Elem 0 3 7%Z 2; Elem 2 0 1%Z 3; Elem 0 3 2%Z 2; Elem 1 1 4%Z 1].
Proof. done. Qed.
