(** WordsProof.v: proofs about Words.v. *)
From Verif Require Import Words.
From Coq Require Import ZifyN ZifyBool ZifyNat.
Local Open Scope N_scope.

Lemma w64_small n : n < 2 ^ 64 -> w64 n = n.
Proof. apply N.mod_small. Qed.
Lemma w32_small n : n < 2 ^ 32 -> w32 n = n.
Proof. apply N.mod_small. Qed.

(** ** next_power_of_two *)
Definition smear (j k n : N) : Prop :=
  forall i, (k < i -> N.testbit n i = false) /\ (i <= k -> k < i + j -> N.testbit n i = true).
Lemma smear_step j k n : smear j k n -> smear (j + j) k (N.lor n (N.shiftr n j)).
Proof.
  intros H i. rewrite N.lor_spec, N.shiftr_spec by lia. split.
  - intros Hi. rewrite (proj1 (H i)) by lia. apply (H (i + j)). lia.
  - intros Hi Hk. destruct (N.lt_ge_cases k (i + j)) as [Hlt|Hge].
    + by rewrite (proj2 (H i)) by lia.
    + rewrite (proj2 (H (i + j))) by lia. by rewrite orb_true_r.
Qed.
Lemma smear_ones j k n : smear j k n -> k < j -> n = N.ones (k + 1).
Proof.
  intros H Hk. apply N.bits_inj. intros i. destruct (N.lt_ge_cases k i) as [Hlt|Hge].
  - rewrite (proj1 (H i)) by lia. by rewrite N.ones_spec_high by lia.
  - rewrite (proj2 (H i)) by lia. by rewrite N.ones_spec_low by lia.
Qed.
Lemma smear_init n : 0 < n -> smear 1 (N.log2 n) n.
Proof.
  intros Hn i. split.
  - intros Hi. by apply N.bits_above_log2.
  - intros H1 H2. assert (i = N.log2 n) as -> by lia. apply N.bit_log2. lia.
Qed.
Definition smear_all (n : N) : N :=
  let n := N.lor n (N.shiftr n 1) in
  let n := N.lor n (N.shiftr n 2) in
  let n := N.lor n (N.shiftr n 4) in
  let n := N.lor n (N.shiftr n 8) in
  let n := N.lor n (N.shiftr n 16) in
  N.lor n (N.shiftr n 32).
Lemma smear_all_spec n : 0 < n -> n < 2 ^ 64 -> smear_all n = 2 ^ (N.log2 n + 1) - 1.
Proof.
  intros Hn Hlt. unfold smear_all.
  pose proof (smear_init n Hn) as H.
  apply (smear_step 1) in H. apply (smear_step 2) in H. apply (smear_step 4) in H.
  apply (smear_step 8) in H. apply (smear_step 16) in H. apply (smear_step 32) in H.
  change (32 + 32) with 64 in H. cbv zeta.
  rewrite (smear_ones _ _ _ H).
  - rewrite N.ones_equiv. by rewrite N.pred_sub.
  - apply N.log2_lt_pow2; lia.
Qed.
Lemma npot_eq n : next_power_of_two n = w64 (smear_all (w64 (n + (2 ^ 64 - 1))) + 1).
Proof. done. Qed.
Lemma npot_0 : next_power_of_two 0 = 0.
Proof. vm_compute. done. Qed.
Lemma npot_spec n : 1 <= n <= 2 ^ 63 ->
  exists k, next_power_of_two n = 2 ^ k /\ k <= 63 /\ n <= 2 ^ k /\ (k = 0 \/ 2 ^ (k - 1) < n).
Proof.
  intros Hn. rewrite npot_eq.
  assert (Hw : w64 (n + (2 ^ 64 - 1)) = n - 1).
  { unfold w64. replace (n + (2 ^ 64 - 1)) with ((n - 1) + 1 * 2 ^ 64) by lia.
    rewrite N.mod_add by lia. apply N.mod_small. lia. }
  rewrite Hw. destruct (N.eq_dec n 1) as [->|Hne].
  { exists 0. vm_compute. repeat split; try done. by left. }
  rewrite smear_all_spec by lia.
  assert (Hlog : N.log2 (n - 1) < 63) by (apply N.log2_lt_pow2; lia).
  pose proof (N.log2_spec (n - 1) ltac:(lia)) as [Hlo Hhi].
  exists (N.log2 (n - 1) + 1). rewrite <- N.add_1_r in Hhi.
  replace (2 ^ (N.log2 (n - 1) + 1) - 1 + 1) with (2 ^ (N.log2 (n - 1) + 1)) by lia.
  split; [|split; [lia|split; [lia|]]].
  - apply w64_small. apply N.pow_lt_mono_r; lia.
  - right. replace (N.log2 (n - 1) + 1 - 1) with (N.log2 (n - 1)) by lia. lia.
Qed.
Lemma npot_overflow n : 2 ^ 63 < n < 2 ^ 64 -> next_power_of_two n = 0.
Proof.
  intros Hn. rewrite npot_eq.
  assert (Hw : w64 (n + (2 ^ 64 - 1)) = n - 1).
  { unfold w64. replace (n + (2 ^ 64 - 1)) with ((n - 1) + 1 * 2 ^ 64) by lia.
    rewrite N.mod_add by lia. apply N.mod_small. lia. }
  rewrite Hw, smear_all_spec by lia.
  assert (N.log2 (n - 1) = 63) as ->; [|vm_compute; done].
  apply N.log2_unique; lia.
Qed.

(** ** highest_bit_set *)
(** mask of the bits s .. 2s-1 *)
Lemma mask_land v s : v < 2 ^ (2 * s) ->
  (N.land v (N.shiftl (N.ones s) s) =? 0) = (v <? 2 ^ s).
Proof.
  intros Hv.
  assert (Hland : N.land v (N.shiftl (N.ones s) s) = N.shiftl (N.shiftr v s) s).
  { apply N.bits_inj. intros i. rewrite N.land_spec.
    destruct (N.lt_ge_cases i s) as [Hi|Hi].
    - rewrite !N.shiftl_spec_low by done. by rewrite andb_false_r.
    - rewrite !N.shiftl_spec_high' by done. rewrite N.shiftr_spec by lia.
      replace (i - s + s) with i by lia.
      destruct (N.lt_ge_cases (i - s) s) as [Hj|Hj].
      + rewrite N.ones_spec_low by done. by rewrite andb_true_r.
      + rewrite N.ones_spec_high by done. rewrite andb_false_r. symmetry.
        destruct (N.eq_dec v 0) as [->|Hv0]; [apply N.bits_0|].
        apply N.bits_above_log2. eapply N.lt_le_trans; [apply (proj1 (N.log2_lt_pow2 v (2 * s) ltac:(lia))); exact Hv|]. lia. }
  rewrite Hland, N.shiftl_mul_pow2, N.shiftr_div_pow2.
  destruct (N.ltb_spec v (2 ^ s)) as [Hlt|Hge].
  - rewrite N.div_small by done. done.
  - apply N.eqb_neq. assert (1 <= v / 2 ^ s); [|nia].
    apply N.div_le_lower_bound; [apply N.pow_nonzero; lia|lia].
Qed.
Lemma lor_add_low q s k : s < 2 ^ k -> N.lor (q * 2 ^ k) s = q * 2 ^ k + s.
Proof.
  intros Hs. rewrite <- N.lxor_lor, N.add_nocarry_lxor; try done.
  all: apply N.bits_inj; intros i; rewrite N.land_spec, N.bits_0;
    destruct (N.lt_ge_cases i k) as [Hi|Hi];
    [by rewrite N.mul_pow2_bits_low
    |assert (N.testbit s i = false) as ->; [|by rewrite andb_false_r]].
  all: destruct (N.eq_dec s 0) as [->|Hs0]; [apply N.bits_0|];
    apply N.bits_above_log2; eapply N.lt_le_trans; [apply (proj1 (N.log2_lt_pow2 s k ltac:(lia))); exact Hs|]; done.
Qed.
(** the loop invariant: [r] is a multiple of 2s, [v] is the original value shifted by [r], and [v < 2^(2s)] *)
Definition hbs_inv (v0 k : N) (vr : N * N) : Prop :=
  exists q, vr.2 = q * 2 ^ k /\ vr.1 = v0 / 2 ^ vr.2 /\ vr.1 < 2 ^ (2 ^ k) /\ (0 < v0 -> 0 < vr.1).
Lemma hbs_step_inv v0 k vr : hbs_inv v0 (N.succ k) vr ->
  hbs_inv v0 k (hbs_step (N.shiftl (N.ones (2 ^ k)) (2 ^ k)) (2 ^ k) vr).
Proof.
  intros (q & Hr & Hv & Hlt & Hpos). unfold hbs_step.
  rewrite N.pow_succ_r' in Hlt. rewrite mask_land by done.
  rewrite N.pow_succ_r' in Hr.
  destruct (N.ltb_spec (vr.1) (2 ^ (2 ^ k))) as [Hl|Hg].
  - exists (2 * q). repeat split; try done. rewrite Hr. lia.
  - exists (2 * q + 1). cbn [fst snd]. split; [|split; [|split]].
    + rewrite Hr. replace (q * (2 * 2 ^ k)) with (q * 2 ^ (N.succ k)) by (by rewrite N.pow_succ_r').
      rewrite lor_add_low by (apply N.pow_lt_mono_r; lia). rewrite N.pow_succ_r'; nia.
    + rewrite N.shiftr_div_pow2, Hv. rewrite N.div_div by (apply N.pow_nonzero; lia).
      rewrite <- N.pow_add_r. f_equal. f_equal. rewrite Hr.
      replace (q * (2 * 2 ^ k)) with (q * 2 ^ (N.succ k)) by (by rewrite N.pow_succ_r').
      rewrite lor_add_low by (apply N.pow_lt_mono_r; lia). done.
    + rewrite N.shiftr_div_pow2. apply N.div_lt_upper_bound; [apply N.pow_nonzero; lia|].
      rewrite <- N.pow_add_r. by replace (2 ^ k + 2 ^ k) with (2 * 2 ^ k) by lia.
    + intros _. rewrite N.shiftr_div_pow2.
      assert (1 <= vr.1 / 2 ^ 2 ^ k); [|lia].
      apply N.div_le_lower_bound; [apply N.pow_nonzero; lia|lia].
Qed.
Lemma hbs_end v0 vr : hbs_inv v0 0 vr -> 0 < v0 -> 2 ^ vr.2 <= v0 < 2 ^ (vr.2 + 1).
Proof.
  intros (q & _ & Hv & Hlt & Hpos) H0. specialize (Hpos H0).
  change (2 ^ 2 ^ 0) with 2 in Hlt. assert (H1 : v0 / 2 ^ vr.2 = 1) by lia.
  assert (Hnz : 2 ^ vr.2 <> 0) by (apply N.pow_nonzero; lia).
  pose proof (N.div_mod v0 (2 ^ vr.2) Hnz) as Hdm. pose proof (N.mod_lt v0 (2 ^ vr.2) Hnz).
  rewrite H1 in Hdm. rewrite N.add_1_r, N.pow_succ_r'. lia.
Qed.
Lemma hbs64_spec v : 0 < v < 2 ^ 64 -> 2 ^ highest_bit_set64 v <= v < 2 ^ (highest_bit_set64 v + 1).
Proof.
  intros Hv. unfold highest_bit_set64. apply hbs_end; [|lia].
  cbn [foldl fst snd].
  apply (hbs_step_inv v 0). apply (hbs_step_inv v 1). apply (hbs_step_inv v 2).
  apply (hbs_step_inv v 3). apply (hbs_step_inv v 4). apply (hbs_step_inv v 5).
  exists 0. simpl fst. simpl snd. rewrite N.pow_0_r, N.div_1_r.
  change (2 ^ 2 ^ N.succ 5) with (2 ^ 64). repeat split; try lia.
Qed.
Lemma hbs32_spec v : 0 < v < 2 ^ 32 -> 2 ^ highest_bit_set32 v <= v < 2 ^ (highest_bit_set32 v + 1).
Proof.
  intros Hv. unfold highest_bit_set32. apply hbs_end; [|lia].
  cbn [foldl fst snd].
  apply (hbs_step_inv v 0). apply (hbs_step_inv v 1). apply (hbs_step_inv v 2).
  apply (hbs_step_inv v 3). apply (hbs_step_inv v 4).
  exists 0. simpl fst. simpl snd. rewrite N.pow_0_r, N.div_1_r.
  change (2 ^ 2 ^ N.succ 4) with (2 ^ 32). repeat split; try lia.
Qed.
Lemma hbs32_log2 v : 0 < v < 2 ^ 32 -> highest_bit_set32 v = N.log2 v.
Proof.
  intros Hv. pose proof (hbs32_spec v Hv). symmetry. apply N.log2_unique; [lia|].
  by rewrite <- N.add_1_r.
Qed.
Lemma hbs64_log2 v : 0 < v < 2 ^ 64 -> highest_bit_set64 v = N.log2 v.
Proof.
  intros Hv. pose proof (hbs64_spec v Hv). symmetry. apply N.log2_unique; [lia|].
  by rewrite <- N.add_1_r.
Qed.

(** ** bit_interleave *)
(** the specification: bit k of x goes to bit 2k, by recursion on the bits *)
Fixpoint spread_pos (p : positive) : positive :=
  match p with
  | xH => xH
  | xO p => xO (xO (spread_pos p))
  | xI p => xI (xO (spread_pos p))
  end.
Definition spread_spec (x : N) : N := match x with 0 => 0 | Npos p => Npos (spread_pos p) end.
(** every x < 2^k above a base, by halving the range *)
Fixpoint all_below (P : N -> bool) (k : nat) (base : N) : bool :=
  match k with
  | O => P base
  | S k => all_below P k (2 * base) && all_below P k (2 * base + 1)
  end.
Lemma all_below_spec P k : forall base, all_below P k base = true ->
  forall x, x / 2 ^ N.of_nat k = base -> P x = true.
Proof.
  induction k as [|k IH]; intros base H x Hx; cbn [all_below] in H.
  - rewrite N.pow_0_r, N.div_1_r in Hx. by subst.
  - apply andb_true_iff in H as [H1 H2].
    replace (N.of_nat (S k)) with (N.of_nat k + 1) in Hx by lia.
    rewrite N.pow_add_r, N.pow_1_r, <- N.div_div in Hx by (try apply N.pow_nonzero; lia).
    destruct (N.eq_dec ((x / 2 ^ N.of_nat k) mod 2) 0) as [E|E].
    + eapply IH; [exact H1|]. lia.
    + eapply IH; [exact H2|]. lia.
Qed.
Lemma spread_sweep : all_below (fun i => spread i =? spread_spec i) 16 0 = true.
Proof. vm_compute. done. Qed.
Lemma spread_eq x : x < 2 ^ 16 -> spread x = spread_spec x.
Proof.
  intros Hx. apply N.eqb_eq. eapply (all_below_spec _ _ _ spread_sweep).
  apply N.div_small. done.
Qed.
Lemma spread_pos_bits p : forall i,
  N.testbit (Npos (spread_pos p)) (2 * i) = N.testbit (Npos p) i /\
  N.testbit (Npos (spread_pos p)) (2 * i + 1) = false.
Proof.
  assert (Hs : forall q, Npos q~1 = 2 * Npos q + 1) by done.
  assert (Hd : forall q, Npos q~0 = 2 * Npos q) by done.
  induction p as [p IH|p IH|]; intros i; cbn [spread_pos].
  - rewrite (Hs (spread_pos p)~0%positive), (Hs p), (Hd (spread_pos p)). split.
    + destruct (N.zero_or_succ i) as [->|[j ->]].
      { rewrite N.mul_0_r. by rewrite !N.testbit_odd_0. }
      replace (2 * N.succ j) with (N.succ (N.succ (2 * j))) by lia.
      rewrite !N.testbit_odd_succ by lia. rewrite N.testbit_even_succ by lia. apply IH.
    + replace (2 * i + 1) with (N.succ (2 * i)) by lia. rewrite N.testbit_odd_succ by lia.
      destruct (N.zero_or_succ i) as [->|[j ->]].
      { rewrite N.mul_0_r. by rewrite N.testbit_even_0. }
      replace (2 * N.succ j) with (N.succ (2 * j + 1)) by lia.
      rewrite N.testbit_even_succ by lia. apply IH.
  - rewrite (Hd (spread_pos p)~0%positive), (Hd p), (Hd (spread_pos p)). split.
    + destruct (N.zero_or_succ i) as [->|[j ->]].
      { rewrite N.mul_0_r. by rewrite !N.testbit_even_0. }
      replace (2 * N.succ j) with (N.succ (N.succ (2 * j))) by lia.
      rewrite !N.testbit_even_succ by lia. apply IH.
    + replace (2 * i + 1) with (N.succ (2 * i)) by lia. rewrite N.testbit_even_succ by lia.
      destruct (N.zero_or_succ i) as [->|[j ->]].
      { rewrite N.mul_0_r. by rewrite N.testbit_even_0. }
      replace (2 * N.succ j) with (N.succ (2 * j + 1)) by lia.
      rewrite N.testbit_even_succ by lia. apply IH.
  - destruct i as [|i]; done.
Qed.
Lemma spread_spec_bits x i :
  N.testbit (spread_spec x) (2 * i) = N.testbit x i /\ N.testbit (spread_spec x) (2 * i + 1) = false.
Proof. destruct x as [|p]; [by rewrite !N.bits_0|apply spread_pos_bits]. Qed.
Lemma spread_spec_lt x y : x < y -> spread_spec x < spread_spec y.
Proof.
  assert (Hstep : forall z, exists b, b <= 1 /\ z = 2 * (z / 2) + b /\ spread_spec z = 4 * spread_spec (z / 2) + b).
  { intros z. destruct z as [|[p|p|]].
    - exists 0. done.
    - exists 1. replace (N.pos p~1 / 2) with (Npos p); [repeat split; lia|].
      apply (N.div_unique _ 2 _ 1); lia.
    - exists 0. replace (N.pos p~0 / 2) with (Npos p); [repeat split; lia|].
      apply (N.div_unique _ 2 _ 0); lia.
    - exists 1. replace (1 / 2) with 0 by done. done. }
  revert x. induction y as [y IH] using (well_founded_induction N.lt_wf_0). intros x Hxy.
  destruct (Hstep x) as (bx & Hbx & Hx & Hsx). destruct (Hstep y) as (by_ & Hby & Hy & Hsy).
  destruct (N.eq_dec (x / 2) (y / 2)) as [Heq|Hne].
  - rewrite Heq in *. lia.
  - assert (Hlt : x / 2 < y / 2) by lia. apply IH in Hlt; lia.
Qed.
Lemma spread_spec_bound x k : x < 2 ^ k -> spread_spec x < 2 ^ (2 * k).
Proof.
  intros Hx. destruct (N.eq_dec (spread_spec x) 0) as [->|Hne].
  { apply N.neq_0_lt_0, N.pow_nonzero. lia. }
  apply N.log2_lt_pow2; [lia|].
  destruct (N.lt_ge_cases (N.log2 (spread_spec x)) (2 * k)) as [?|Hge]; [done|exfalso].
  pose proof (N.bit_log2 _ Hne) as Hb.
  set (L := N.log2 (spread_spec x)) in *. pose proof (N.div_mod L 2 ltac:(lia)) as HL.
  pose proof (N.mod_lt L 2 ltac:(lia)). destruct (N.eq_dec (L mod 2) 0) as [E|E].
  - replace L with (2 * (L / 2)) in Hb by lia. rewrite (proj1 (spread_spec_bits x _)) in Hb.
    destruct (N.eq_dec x 0) as [->|Hx0]; [by rewrite N.bits_0 in Hb|].
    rewrite N.bits_above_log2 in Hb; [done|].
    eapply N.lt_le_trans; [apply (proj1 (N.log2_lt_pow2 x k ltac:(lia))); exact Hx|]. lia.
  - replace L with (2 * (L / 2) + 1) in Hb by lia. by rewrite (proj2 (spread_spec_bits x _)) in Hb.
Qed.
Lemma interleave_eq r c : r < 2 ^ 16 -> c < 2 ^ 16 ->
  bit_interleave r c = spread_spec r + 2 * spread_spec c.
Proof.
  intros Hr Hc. unfold bit_interleave.
  rewrite (w32_small r), (w32_small c) by lia. rewrite !spread_eq by done.
  pose proof (spread_spec_bound c 16 Hc) as Hb. change (2 ^ (2 * 16)) with (2 ^ 32) in Hb.
  assert (Hb31 : spread_spec c < 2 ^ 31).
  { (* bit 31 is odd, hence clear *)
    destruct (N.lt_ge_cases (spread_spec c) (2 ^ 31)) as [?|Hge]; [done|exfalso].
    assert (N.log2 (spread_spec c) = 31) as HL by (apply N.log2_unique; lia).
    pose proof (N.bit_log2 (spread_spec c) ltac:(lia)) as Hbit. rewrite HL in Hbit.
    change 31 with (2 * 15 + 1) in Hbit. by rewrite (proj2 (spread_spec_bits c _)) in Hbit. }
  rewrite N.shiftl_mul_pow2. rewrite w32_small by lia.
  replace (spread_spec c * 2 ^ 1) with (2 * spread_spec c) by lia.
  assert (Hno : N.land (spread_spec r) (2 * spread_spec c) = 0).
  { apply N.bits_inj. intros i. rewrite N.land_spec, N.bits_0.
    pose proof (N.div_mod i 2 ltac:(lia)) as Hi. pose proof (N.mod_lt i 2 ltac:(lia)).
    destruct (N.eq_dec (i mod 2) 0) as [E|E].
    - destruct (N.zero_or_succ (i / 2)) as [E2|[j E2]].
      + assert (i = 0) as -> by lia. by rewrite N.testbit_even_0, andb_false_r.
      + assert (i = N.succ (2 * j + 1)) as -> by lia. rewrite N.testbit_even_succ by lia.
        by rewrite (proj2 (spread_spec_bits c j)), andb_false_r.
    - replace i with (2 * (i / 2) + 1) by lia. by rewrite (proj2 (spread_spec_bits r _)). }
  rewrite <- N.lxor_lor by done. symmetry. apply N.add_nocarry_lxor. done.
Qed.
Lemma interleave_bits r c k : r < 2 ^ 16 -> c < 2 ^ 16 ->
  N.testbit (bit_interleave r c) (2 * k) = N.testbit r k /\
  N.testbit (bit_interleave r c) (2 * k + 1) = N.testbit c k.
Proof.
  intros Hr Hc. rewrite interleave_eq by done.
  destruct (spread_spec_bits r k) as [H1 H2]. destruct (spread_spec_bits c k) as [H3 H4].
  assert (Hno : N.land (spread_spec r) (2 * spread_spec c) = 0).
  { apply N.bits_inj. intros i. rewrite N.land_spec, N.bits_0.
    pose proof (N.div_mod i 2 ltac:(lia)) as Hi. pose proof (N.mod_lt i 2 ltac:(lia)).
    destruct (N.eq_dec (i mod 2) 0) as [E|E].
    - destruct (N.zero_or_succ (i / 2)) as [E2|[j E2]].
      + assert (i = 0) as -> by lia. by rewrite N.testbit_even_0, andb_false_r.
      + assert (i = N.succ (2 * j + 1)) as -> by lia. rewrite N.testbit_even_succ by lia.
        by rewrite (proj2 (spread_spec_bits c j)), andb_false_r.
    - replace i with (2 * (i / 2) + 1) by lia. by rewrite (proj2 (spread_spec_bits r _)). }
  rewrite N.add_nocarry_lxor by done. rewrite !N.lxor_spec, H1, H2.
  replace (2 * k + 1) with (N.succ (2 * k)) by lia. rewrite N.testbit_even_succ by lia.
  rewrite H3. split; [|by destruct (N.testbit c k)].
  destruct (N.zero_or_succ k) as [->|[j ->]].
  - rewrite N.mul_0_r, N.testbit_even_0. by rewrite xorb_false_r.
  - replace (2 * N.succ j) with (N.succ (2 * j + 1)) by lia. rewrite N.testbit_even_succ by lia.
    rewrite (proj2 (spread_spec_bits c j)). by rewrite xorb_false_r.
Qed.
Lemma interleave_inj r c r' c' : r < 2 ^ 16 -> c < 2 ^ 16 -> r' < 2 ^ 16 -> c' < 2 ^ 16 ->
  bit_interleave r c = bit_interleave r' c' -> r = r' /\ c = c'.
Proof.
  intros Hr Hc Hr' Hc' Heq. split; apply N.bits_inj; intros k;
    destruct (interleave_bits r c k Hr Hc) as [H1 H2];
    destruct (interleave_bits r' c' k Hr' Hc') as [H3 H4]; congruence.
Qed.
Lemma interleave_mono r c r' c' : r < 2 ^ 16 -> c < 2 ^ 16 -> r' < 2 ^ 16 -> c' < 2 ^ 16 ->
  r <= r' -> c <= c' -> (r < r' \/ c < c') -> bit_interleave r c < bit_interleave r' c'.
Proof.
  intros Hr Hc Hr' Hc' H1 H2 H3. rewrite !interleave_eq by done.
  assert (Hle : forall a b, a <= b -> spread_spec a <= spread_spec b).
  { intros a b Hab. destruct (N.eq_dec a b) as [->|]; [lia|]. apply N.lt_le_incl, spread_spec_lt. lia. }
  pose proof (Hle r r' H1). pose proof (Hle c c' H2).
  destruct H3 as [H3|H3]; apply spread_spec_lt in H3; lia.
Qed.


(** ** pick_block_size *)
Definition dimbits (m : N) : N := highest_bit_set32 (w32 (next_power_of_two m)).
Lemma dimbits_spec m : m < 2 ^ 32 ->
  (dimbits m = 0 /\ (m <= 1 \/ 2 ^ 31 < m)) \/
  (1 <= dimbits m <= 31 /\ 1 < m <= 2 ^ 31 /\ 2 ^ (dimbits m - 1) < m <= 2 ^ dimbits m).
Proof.
  intros Hm. unfold dimbits.
  destruct (N.eq_dec m 0) as [->|H0]. { left. rewrite npot_0. split; [done|lia]. }
  destruct (npot_spec m) as (k & Hk & Hk63 & Hle & Hlow); [lia|]. rewrite Hk.
  destruct (N.lt_ge_cases (2 ^ 31) m) as [Hbig|Hsm].
  - left. split; [|lia]. assert (k = 32) as ->; [|done].
    destruct (N.lt_trichotomy k 32) as [Hlt|[Heq|Hgt]]; [|done|].
    + assert (2 ^ k <= 2 ^ 31) by (apply N.pow_le_mono_r; lia). lia.
    + destruct Hlow as [->|Hlow]; [lia|].
      assert (2 ^ 32 <= 2 ^ (k - 1)) by (apply N.pow_le_mono_r; lia). lia.
  - assert (Hk31 : k <= 31).
    { destruct (N.lt_ge_cases 31 k) as [Hgt|]; [|done]. destruct Hlow as [->|Hlow]; [lia|].
      assert (2 ^ 31 <= 2 ^ (k - 1)) by (apply N.pow_le_mono_r; lia). lia. }
    assert (Hp : 0 < 2 ^ k) by (apply N.neq_0_lt_0, N.pow_nonzero; lia).
    assert (Hp2 : 2 ^ k < 2 ^ 32) by (apply N.pow_lt_mono_r; lia).
    rewrite w32_small by done. rewrite hbs32_log2 by done. rewrite N.log2_pow2 by lia.
    destruct (N.eq_dec k 0) as [->|Hk0].
    + left. change (2 ^ 0) with 1 in *. lia.
    + right. destruct Hlow as [->|Hlow]; [lia|].
      assert (1 <= 2 ^ (k - 1)) by (apply N.lt_pred_le, N.neq_0_lt_0, N.pow_nonzero; lia). lia.
Qed.
Lemma dec32_small n : 0 < n < 2 ^ 32 -> dec32 n = n - 1.
Proof.
  intros Hn. unfold dec32, w32. replace (n + (2 ^ 32 - 1)) with ((n - 1) + 1 * 2 ^ 32) by lia.
  rewrite N.mod_add by lia. apply N.mod_small. lia.
Qed.
Lemma inc32_small n : n < 2 ^ 31 -> inc32 n = n + 1.
Proof. intros Hn. unfold inc32. apply w32_small. lia. Qed.
Lemma shl1_small k : k <= 30 -> shl1 k = Ok (2 ^ Z.of_N k)%Z.
Proof. intros Hk. unfold shl1. by rewrite (proj2 (N.ltb_lt k 31)) by lia. Qed.
Lemma pow2_Z_N k : (2 ^ Z.of_N k)%Z = Z.of_N (2 ^ k).
Proof. by rewrite N2Z.inj_pow. Qed.

Lemma bind_assoc {A B C} (m : outcome A) (f : A -> outcome B) (g : B -> outcome C) :
  (m ≫= f) ≫= g = m ≫= (fun a => f a ≫= g).
Proof. by destruct m. Qed.
Lemma bind_ext {A B} (m : outcome A) (f g : A -> outcome B) : (forall a, f a = g a) -> m ≫= f = m ≫= g.
Proof. intros H. destruct m; simpl; auto. Qed.
(** the cache loops (include/utils.h:52-68) *)
Definition l2loop (fuel : nat) (lo val_size : N) : outcome (N * N) :=
  sy ← shl1 lo;
  while_ fuel (fun '(yL2, lo) => Ok (L2SIZE <? yL2)%N)
                   (fun '(yL2, lo) => Ok (yL2 / 2, dec32 lo)%N)
                   (w32 (Z.to_N (sy mod 2 ^ 64) * val_size), lo).
Lemma l2loop_spec fuel lo vs : lo <= 30 -> vs <= 2 ^ 18 -> (32 <= fuel)%nat ->
  wp (l2loop fuel lo vs) (fun r => r.2 <= lo /\ (vs <= 8 -> N.min lo 15 <= r.2)).
Proof.
  intros Hlo Hvs Hf. unfold l2loop. rewrite shl1_small by done. cbn [mbind outcome_bind].
  eapply wp_mono; [apply (wp_while (fun '(y, l) => (y <= 2 ^ l * vs /\ l <= lo) /\ (vs <= 8 -> N.min lo 15 <= l)) (fun '(y, l) => N.to_nat l))|].
  - split; [|lia]. split; [|done]. rewrite pow2_Z_N.
    assert (2 ^ lo <= 2 ^ 30) by (apply N.pow_le_mono_r; lia).
    rewrite Z.mod_small by (pose proof (N2Z.is_nonneg (2 ^ lo)); lia).
    rewrite N2Z.id. unfold w32. apply N.mod_le. lia.
  - lia.
  - intros [y l] [[Hy Hl] Hl2]. cbn. intros Hlt%N.ltb_lt. unfold L2SIZE in Hlt.
    assert (l <> 0). { intros ->. change (2 ^ 0) with 1 in Hy. lia. }
    rewrite dec32_small by lia. split; [|lia]. split; [split; [|lia]|].
    2:{ intros Hv8. specialize (Hl2 Hv8). assert (16 <= l); [|lia]. destruct (N.lt_ge_cases l 16) as [Hl16|]; [|done].
        assert (2 ^ l <= 2 ^ 15) by (apply N.pow_le_mono_r; lia). change (2 ^ 15) with 32768 in *. change (256 * 1024) with 262144 in *. nia. }
    apply N.div_le_upper_bound; [lia|].
    replace (2 ^ l) with (2 * 2 ^ (l - 1)) in Hy.
    + lia.
    + rewrite <- N.pow_succ_r'. f_equal. lia.
  - intros [y l] [[[_ Hl] Hl2] _]. done.
Qed.

Definition pbs_tail (fuel : nat) (logbeta rowlow collow : N) : outcome N :=
  let maxbits := highest_bit_set32 (2 ^ 32 - 1)%N in
  '(rowlow, collow) ← while_ fuel (fun '(r, c) => Ok (maxbits <? w32 (r + c))%N)
                   (fun '(r, c) => Ok (if c <? r then (dec32 r, c) else (r, dec32 c))%N)
                   (rowlow, collow);
  rowlow ← while_ fuel (fun r => Ok (collow <? r)%N) (fun r => Ok (dec32 r)) rowlow;
  collow ← while_ fuel (fun c => Ok (rowlow <? c)%N) (fun c => Ok (dec32 c)) collow;
  _ ← assert_ (collow =? rowlow)%N;
  s ← shl1 rowlow;
  if (logbeta <? rowlow)%N then
    s' ← shl1 logbeta; Ok (w32 (Z.to_N ((s' - 1) mod 2 ^ 32) + 1))
  else Ok (w32 (Z.to_N ((s - 1) mod 2 ^ 32) + 1)).
Lemma mask_plus1 k : k <= 30 -> w32 (Z.to_N ((2 ^ Z.of_N k - 1) mod 2 ^ 32) + 1) = 2 ^ k.
Proof.
  intros Hk. rewrite pow2_Z_N.
  assert (2 ^ k <= 2 ^ 30) by (apply N.pow_le_mono_r; lia).
  assert (0 < 2 ^ k) by (apply N.neq_0_lt_0, N.pow_nonzero; lia).
  rewrite Z.mod_small by lia. rewrite w32_small by lia. lia.
Qed.
Lemma pbs_tail_spec fuel logbeta r c : r <= 30 -> c <= 30 -> (64 <= fuel)%nat ->
  wp (pbs_tail fuel logbeta r c) (fun s => exists k, s = 2 ^ k /\ k = N.min logbeta (N.min 15 (N.min r c))).
Proof.
  intros Hr Hc Hf. unfold pbs_tail. change (highest_bit_set32 (2 ^ 32 - 1)) with 31.
  apply wp_bind.
  eapply wp_mono; [apply (wp_while (fun '(r', c') => r' <= r /\ c' <= c /\ (r' < r -> 15 <= r' /\ c' <= r' + 1) /\ (c' < c -> 15 <= c' /\ r' <= c' + 1)) (fun '(r', c') => N.to_nat (r' + c')))|].
  - lia.
  - lia.
  - intros [r' c'] (Hr' & Hc' & Hr2' & Hc2'). cbn. intros Hlt%N.ltb_lt.
    rewrite w32_small in Hlt by lia. destruct (N.ltb_spec c' r'); rewrite dec32_small by lia; lia.
  - intros [r1 c1] [(Hr1 & Hc1 & Hr3 & Hc3) E0]. injection E0 as E0. apply N.ltb_ge in E0. rewrite w32_small in E0 by lia. apply wp_bind.
    eapply wp_mono; [apply (wp_while (fun r' => r' <= r1 /\ (r' < r1 -> c1 <= r')) N.to_nat)|].
    + lia.
    + lia.
    + intros r' [Hr' Hr'']. cbn. intros Hlt%N.ltb_lt. rewrite dec32_small by lia. lia.
    + intros r2 [[Hr2 Hr2'] E]. injection E as E. apply N.ltb_ge in E. apply wp_bind.
      eapply wp_mono; [apply (wp_while (fun c' => c' <= c1 /\ r2 <= c') N.to_nat)|].
      * lia.
      * lia.
      * intros c' [Hc' Hc'']. cbn. intros Hlt%N.ltb_lt. rewrite dec32_small by lia. lia.
      * intros c2 [[Hc2 Hc2'] E2]. injection E2 as E2. apply N.ltb_ge in E2.
        assert (c2 = r2) as -> by lia.
        rewrite N.eqb_refl. cbn [assert_ mbind outcome_bind].
        rewrite (shl1_small r2) by lia. cbn [mbind outcome_bind].
        destruct (N.ltb_spec logbeta r2) as [Hlb|Hlb].
        -- rewrite shl1_small by lia. cbn [mbind outcome_bind wp]. rewrite mask_plus1 by lia.
           exists logbeta. split; [done|lia].
        -- cbn [wp]. rewrite mask_plus1 by lia. exists r2. split; [done|lia].
Qed.

(** a dimension that passes the size requirement (include/utils.h:24-33) *)
Definition dim_ok (workers : Z) (m : N) : Prop :=
  if decide (1 < workers)%Z then m <= 2 ^ 30 /\ (8 * workers < 2 ^ Z.of_N (N.log2_up m))%Z
  else 2 < m <= 2 ^ 31.
Lemma dimbits_log2_up m : 1 < m <= 2 ^ 31 -> dimbits m = N.log2_up m.
Proof.
  intros Hm. destruct (dimbits_spec m) as [[_ ?]|(H1 & H2 & H3 & H4)]; [lia|lia|].
  symmetry. apply N.log2_up_unique; [lia|]. rewrite <- N.sub_1_r. lia.
Qed.
Lemma pick_unfold fuel logbeta m n vs workers :
  pick_block_size fuel logbeta m n vs workers =
  (sizereq ←
    (if (1 <? workers)%Z then
       sr ← shl1 (dimbits m); sc ← shl1 (dimbits n);
       Ok (((SLACKNESS * workers <? sr) && (SLACKNESS * workers <? sc))%Z)
     else Ok ((1 <? dimbits m) && (1 <? dimbits n))%N);
  if negb sizereq then Ok 0%N else
  '(rowhigh, rowlow) ←
    (if (1 <? workers)%Z then
       while_ fuel (fun '(hi, lo) => s ← shl1 hi; Ok (s <? SLACKNESS * workers)%Z)
                   (fun '(hi, lo) => Ok (inc32 hi, dec32 lo))
                   (w32 (dimbits m + (2 ^ 32 - dec32 (dimbits m))), dec32 (dimbits m))
     else Ok (w32 (dimbits m + (2 ^ 32 - dec32 (dimbits m))), dec32 (dimbits m)));
  '(_, rowlow) ← l2loop fuel rowlow vs;
  '(_, collow) ← l2loop fuel (dec32 (dimbits n)) vs;
  pbs_tail fuel logbeta rowlow collow).
Proof.
  unfold pick_block_size, dimbits, l2loop, pbs_tail. cbv zeta.
  apply bind_ext. intros []; cbn [negb]; [|done].
  apply bind_ext. intros [hi lo]. rewrite bind_assoc. apply bind_ext. intros sy.
  apply bind_ext. intros [y lo']. rewrite bind_assoc. apply bind_ext. intros sx. done.
Qed.
Lemma shl1_gt k w : k <= 31 -> (0 <= w)%Z -> exists s, shl1 k = Ok s /\ ((w < s)%Z <-> k <= 30 /\ (w < 2 ^ Z.of_N k)%Z).
Proof.
  intros Hk Hw. unfold shl1. destruct (N.ltb_spec k 31) as [H|H].
  - eexists; split; [done|]. split; [intros; split; [lia|done]|tauto].
  - assert (k = 31) as -> by lia. exists (-2 ^ 31)%Z. split; [done|]. split; [lia|]. lia.
Qed.
(** the number of bits kept for the block row (include/utils.h:42-49) *)
Definition high_bits (workers : Z) : N := if (1 <? workers)%Z then N.log2_up (Z.to_N (8 * workers)) else 1.
Lemma pick_block_size_spec fuel logbeta m n vs workers :
  m < 2 ^ 32 -> n < 2 ^ 32 -> vs <= 2 ^ 18 -> (1 <= workers < 2 ^ 28)%Z -> (64 <= fuel)%nat ->
  wp (pick_block_size fuel logbeta m n vs workers)
     (fun s => (s = 0 /\ ~ (dim_ok workers m /\ dim_ok workers n)) \/
               (dim_ok workers m /\ dim_ok workers n /\ exists k, s = 2 ^ k /\ s < m /\ s < n /\ k <= 15 /\ k <= logbeta /\ k + high_bits workers <= N.log2_up m /\ k + 1 <= N.log2_up n /\
                 (vs <= 8 -> k = N.min logbeta (N.min 15 (N.min (N.log2_up m - high_bits workers) (N.log2_up n - 1)))))).
Proof.
  intros Hm Hn Hvs Hw Hf. rewrite pick_unfold. unfold SLACKNESS.
  set (bm := dimbits m). set (bn := dimbits n).
  assert (Hbm : bm <= 31) by (unfold bm; destruct (dimbits_spec m) as [[-> _]|?]; lia).
  assert (Hbn : bn <= 31) by (unfold bn; destruct (dimbits_spec n) as [[-> _]|?]; lia).
  assert (Hreq : wp (if (1 <? workers)%Z then
       sr ← shl1 bm; sc ← shl1 bn; Ok (((8 * workers <? sr) && (8 * workers <? sc))%Z)
     else Ok ((1 <? bm) && (1 <? bn))%N)
     (fun b => b = true <-> dim_ok workers m /\ dim_ok workers n)).
  { assert (Hd : forall d, d < 2 ^ 32 ->
       dim_ok workers d <-> if (1 <? workers)%Z then dimbits d <= 30 /\ (8 * workers < 2 ^ Z.of_N (dimbits d))%Z else 1 < dimbits d).
    { intros d Hd. unfold dim_ok. destruct (Z.ltb_spec 1 workers) as [H1|H1]; [rewrite decide_True by done|rewrite decide_False by lia].
      - destruct (dimbits_spec d Hd) as [[E E2]|(E1 & E2 & E3)].
        + rewrite E. split; [|change (2 ^ Z.of_N 0)%Z with 1%Z; lia]. intros [H2 H3].
          destruct E2 as [E2|]; [|lia]. rewrite N.log2_up_eqn0 in H3 by done. simpl in H3. lia.
        + rewrite <- dimbits_log2_up by done. split; [|].
          * intros [H2 H3]. split; [|done].
            destruct (N.lt_ge_cases 30 (dimbits d)) as [Hgt|]; [|done].
            assert (2 ^ 30 <= 2 ^ (dimbits d - 1)) by (apply N.pow_le_mono_r; lia). lia.
          * intros [H2 H3]. split; [|done].
            assert (2 ^ dimbits d <= 2 ^ 30) by (apply N.pow_le_mono_r; lia). lia.
      - destruct (dimbits_spec d Hd) as [[E E2]|(E1 & E2 & E3)]; [lia|].
        split; intros H2.
        + destruct (N.eq_dec (dimbits d) 1) as [E|]; [|lia]. rewrite E in E3. change (2 ^ 1) with 2 in E3. lia.
        + assert (2 ^ 1 <= 2 ^ (dimbits d - 1)) by (apply N.pow_le_mono_r; lia).
          change (2 ^ 1) with 2 in *. lia. }
    pose proof (Hd m Hm) as Hdm. pose proof (Hd n Hn) as Hdn. fold bm in Hdm. fold bn in Hdn.
    destruct (1 <? workers)%Z eqn:E.
    - destruct (shl1_gt bm (8 * workers)) as (sr & -> & Hsr); [done|lia|].
      destruct (shl1_gt bn (8 * workers)) as (sc & -> & Hsc); [done|lia|].
      cbn [mbind outcome_bind wp]. rewrite andb_true_iff, !Z.ltb_lt, Hdm, Hdn. tauto.
    - cbn [wp]. rewrite andb_true_iff, !N.ltb_lt, Hdm, Hdn. tauto. }
  apply wp_bind. eapply wp_mono; [exact Hreq|]. intros [|] Hb; cbn [negb].
  2:{ left. split; [done|]. intros H. by apply Hb in H. }
  destruct (proj1 Hb eq_refl) as [Hdm Hdn].
  assert (Hpos : forall d, d < 2 ^ 32 -> dim_ok workers d -> 1 <= dimbits d <= 31 /\ 2 ^ (dimbits d - 1) < d /\
            ((1 < workers)%Z -> (8 * workers < 2 ^ Z.of_N (dimbits d))%Z /\ dimbits d <= 30)).
  { intros d Hd Hok. unfold dim_ok in Hok. destruct (decide (1 < workers)%Z).
    - destruct (N.lt_ge_cases 1 d) as [H1|H1].
      + destruct (dimbits_spec d Hd) as [[_ ?]|(E1 & E2 & E3)]; [lia|].
        rewrite <- dimbits_log2_up in Hok by lia. repeat split; try lia.
        destruct (N.lt_ge_cases 30 (dimbits d)) as [Hgt|]; [|lia].
        assert (2 ^ 30 <= 2 ^ (dimbits d - 1)) by (apply N.pow_le_mono_r; lia). lia.
      + destruct Hok as [_ Hok]. rewrite N.log2_up_eqn0 in Hok by done. simpl in Hok. lia.
    - destruct (dimbits_spec d Hd) as [[_ ?]|(E1 & E2 & E3)]; [lia|]. repeat split; lia. }
  destruct (Hpos m Hm Hdm) as (Hm1 & Hm2 & Hm3). destruct (Hpos n Hn Hdn) as (Hn1 & Hn2 & Hn3).
  fold bm in Hm1, Hm2, Hm3. fold bn in Hn1, Hn2, Hn3.
  rewrite !dec32_small by lia.
  replace (w32 (bm + (2 ^ 32 - (bm - 1)))) with 1.
  2:{ unfold w32. replace (bm + (2 ^ 32 - (bm - 1))) with (1 + 1 * 2 ^ 32) by lia. by rewrite N.mod_add by lia. }
  apply wp_bind.
  assert (Hhi : wp (if (1 <? workers)%Z then
       while_ fuel (fun '(hi, lo) => s ← shl1 hi; Ok (s <? 8 * workers)%Z)
                   (fun '(hi, lo) => Ok (inc32 hi, dec32 lo)) (1, bm - 1)
     else Ok (1, bm - 1)) (fun r => r.2 <= bm - 1 /\ r.2 = bm - high_bits workers /\ high_bits workers <= bm)).
  { unfold high_bits. destruct (Z.ltb_spec 1 workers) as [H1|H1]; [|cbn; lia].
    destruct (Hm3 H1) as [Hm4 Hm5].
    eapply wp_mono; [apply (wp_while (fun '(hi, lo) => hi + lo = bm /\ 1 <= hi /\ 2 ^ (hi - 1) < Z.to_N (8 * workers)) (fun '(hi, lo) => N.to_nat lo))|].
    - change (2 ^ (1 - 1)) with 1. repeat split; lia.
    - lia.
    - intros [hi lo] (Hs & Hh & Hp). rewrite shl1_small by lia. cbn [mbind outcome_bind wp].
      intros Hlt%Z.ltb_lt.
      assert (hi < bm).
      { destruct (N.lt_ge_cases hi bm) as [|Hge]; [done|]. assert (hi = bm) as -> by lia. lia. }
      rewrite inc32_small, dec32_small by lia. replace (hi + 1 - 1) with hi by lia. rewrite pow2_Z_N in Hlt. repeat split; lia.
    - intros [hi lo] [(Hs & Hh & Hp) E]. rewrite shl1_small in E by lia. cbn [mbind outcome_bind] in E. injection E as E. apply Z.ltb_ge in E.
      assert (Hhi : N.log2_up (Z.to_N (8 * workers)) = hi).
      { apply N.log2_up_unique; [lia|]. rewrite <- N.sub_1_r. split; [done|]. rewrite pow2_Z_N in E. lia. }
      rewrite Hhi. cbn [snd]. lia. }
  eapply wp_mono; [exact Hhi|]. intros [hi lo] (Hlo & Hlo2 & Hlo3). cbn [snd] in Hlo, Hlo2.
  apply wp_bind. eapply wp_mono; [apply l2loop_spec; lia|]. intros [y lo'] [Hlo' Hlo2']. cbn [snd] in Hlo', Hlo2'.
  apply wp_bind. eapply wp_mono; [apply l2loop_spec; lia|]. intros [x co'] [Hco' Hco2']. cbn [snd] in Hco', Hco2'.
  eapply wp_mono; [apply pbs_tail_spec; lia|]. intros s (k & -> & Hk).
  right. split; [done|]. split; [done|]. exists k. split; [done|].
  assert (Kb : k <= logbeta /\ k <= 15 /\ k <= lo' /\ k <= co') by (clear -Hk; lia). destruct Kb as (K1 & K2 & K3 & K4).
  assert (Kr : k <= bm - 1) by (clear -K3 Hlo' Hlo; lia). assert (Kc : k <= bn - 1) by (clear -K4 Hco'; lia).
  assert (P1 : 2 ^ k <= 2 ^ (bm - 1)) by (apply N.pow_le_mono_r; [done|exact Kr]).
  assert (P2 : 2 ^ k <= 2 ^ (bn - 1)) by (apply N.pow_le_mono_r; [done|exact Kc]).
  split; [clear -P1 Hm2; lia|]. split; [clear -P2 Hn2; lia|]. split; [done|]. split; [done|].
  assert (Hlog : forall d, d < 2 ^ 32 -> dim_ok workers d -> N.log2_up d = dimbits d).
  { intros d Hd Hok. symmetry. apply dimbits_log2_up. destruct (Hpos d Hd Hok) as (Q1 & Q2 & _). clear -Q1 Q2 Hd.
    assert (2 ^ 0 <= 2 ^ (dimbits d - 1)) by (apply N.pow_le_mono_r; lia). change (2 ^ 0) with 1 in *. split; [lia|].
    destruct (dimbits_spec d Hd) as [[E _]|E]; lia. }
  rewrite (Hlog m Hm Hdm), (Hlog n Hn Hdn). fold bm bn. split; [clear -K3 Hlo2 Hlo3 Hlo'; lia|]. split; [clear -K4 Hco' Hn1; lia|].
  intros Hv8. specialize (Hlo2' Hv8). specialize (Hco2' Hv8). clear -Hk Hlo2' Hco2' Hlo2 Hlo' Hco'. lia.
Qed.
