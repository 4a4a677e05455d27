(** Properties_Expand.v: C49-C50, expansion of blocks to one power-of-two size
    (include/expand.h). *)
From Verif Require Import WordsProof UtilsProof PermuteProof Expand Properties_Utils.

(** ** C49 *)
Definition power_of_two (B : nat) : Prop := exists k, B = 2 ^ k.

Lemma expand_max `{Widths} (sizes : list nat) :
  exists m, expand_block_size (full sizes) (length sizes) = Ok (wrap (N.to_nat (next_power_of_two (N.of_nat m)))) /\
    (forall s, s ∈ sizes -> s <= m) /\ (m = 0 \/ m ∈ sizes).
Proof.
  unfold expand_block_size.
  assert (Hl : wp (for_range 0 (length sizes) (fun i max_block => s ← aget (full sizes) i; Ok (if max_block <? s then s else max_block)) 0)
    (fun m => (forall i s, i < length sizes -> sizes !! i = Some s -> s <= m) /\ (m = 0 \/ m ∈ sizes))).
  { apply (wp_for_range (fun k m => (forall i s, i < k -> sizes !! i = Some s -> s <= m) /\ (m = 0 \/ m ∈ sizes))).
    - lia.
    - split; [intros; lia|by left].
    - intros i m Hi (H1 & H2). destruct (lookup_lt_is_Some_2 sizes i ltac:(lia)) as [s Hs].
      rewrite aget_full, (lget_some _ _ _ Hs). simpl.
      destruct (Nat.ltb_spec m s).
      + split; [|right; by eapply elem_of_list_lookup_2]. intros j t Hj Ht. destruct (decide (j = i)) as [->|].
        * simplify_eq. lia.
        * specialize (H1 j t ltac:(lia) Ht). lia.
      + split; [|done]. intros j t Hj Ht. destruct (decide (j = i)) as [->|].
        * simplify_eq. lia.
        * apply (H1 j t ltac:(lia) Ht). }
  apply wp_exists in Hl as (m & Hm & H1 & H2). exists m. rewrite Hm. split; [done|]. split; [|done].
  intros s Hs. apply elem_of_list_lookup in Hs as [i Hi]. apply (H1 i s); [|done]. by eapply lookup_lt_Some.
Qed.
Lemma npot_nat (m : nat) : 1 <= m -> (N.of_nat m <= 2 ^ 63)%N ->
  exists k, N.to_nat (next_power_of_two (N.of_nat m)) = 2 ^ k /\ m <= 2 ^ k /\ forall j, m <= 2 ^ j -> 2 ^ k <= 2 ^ j.
Proof.
  intros H1 H2. destruct (C01_next_power_of_two (N.of_nat m)) as [Hp _].
  { eapply N.le_lt_trans; [exact H2|]. by vm_compute. }
  destruct Hp as (k & Hk & Hle & Hmin); [split; [lia|done]|]. exists (N.to_nat k).
  assert (Hpow : forall j : N, N.to_nat (2 ^ j) = 2 ^ N.to_nat j) by (intros j; by rewrite N2Nat.inj_pow).
  rewrite Hk, <- Hpow. split; [done|]. split; [lia|]. intros j Hj. specialize (Hmin (N.of_nat j)).
  specialize (Hpow (N.of_nat j)). rewrite Nat2N.id in Hpow. rewrite <- Hpow in *. lia.
Qed.

Theorem C49_expand_block_size `{Widths} (sizes : list nat) :
  (exists s, s ∈ sizes /\ 1 <= s) -> (forall s, s ∈ sizes -> (N.of_nat s <= 2 ^ 63)%N) ->
  (exists P, power_of_two P /\ P < itW /\ forall s, s ∈ sizes -> s <= P) ->
  exists B, expand_block_size (full sizes) (length sizes) = Ok B /\ power_of_two B /\
    (forall s, s ∈ sizes -> s <= B) /\
    (forall P, power_of_two P -> (forall s, s ∈ sizes -> s <= P) -> B <= P).
Proof.
  intros (s0 & Hs0 & H1) Hb (P & (j & HP) & HPw & HPs). destruct (expand_max sizes) as (m & Hm & Hle & Hin).
  assert (m ∈ sizes) as Hms. { destruct Hin as [->|]; [|done]. specialize (Hle s0 Hs0). lia. }
  assert (1 <= m) as Hm1 by (specialize (Hle s0 Hs0); lia).
  destruct (npot_nat m Hm1 (Hb m Hms)) as (k & Hk & Hmk & Hmin). rewrite Hk in Hm.
  assert (2 ^ k <= P) as HkP by (subst P; apply Hmin, HPs, Hms).
  exists (2 ^ k). rewrite wrap_small in Hm by lia. split; [done|]. split; [by exists k|]. split.
  - intros s Hs. specialize (Hle s Hs). lia.
  - intros Q (i & HQ) HQs. subst Q. apply Hmin, HQs, Hms.
Qed.
(** when every size is zero (or there are no blocks), or the power does not fit an index
    type of w bits, the result is 0 *)
Theorem C49_expand_block_size_zero `{Widths} (sizes : list nat) (w : nat) :
  itW = 2 ^ w -> w <= 64 -> (forall s, s ∈ sizes -> s < itW) ->
  (forall s, s ∈ sizes -> s = 0) \/ (exists s, s ∈ sizes /\ forall P, power_of_two P -> s <= P -> itW <= P) ->
  expand_block_size (full sizes) (length sizes) = Ok 0.
Proof.
  intros HW Hw Hs Hc. destruct (expand_max sizes) as (m & Hm & Hle & Hin). rewrite Hm. f_equal.
  assert (Hpow : forall j : N, N.to_nat (2 ^ j) = 2 ^ N.to_nat j) by (intros j; by rewrite N2Nat.inj_pow).
  assert (2 ^ w <> 0) as Hw0 by (by apply Nat.pow_nonzero).
  destruct Hc as [Hz|(s & Hsin & Hbig)].
  - assert (m = 0) as -> by (destruct Hin as [->|Hin]; [done|by apply Hz]). change (N.of_nat 0) with 0%N. rewrite npot_0.
    unfold wrap. apply Nat.mod_0_l. lia.
  - assert (Hsm := Hle s Hsin).
    assert (m < itW) as Hmw by (destruct Hin as [->|Hin]; [lia|by apply Hs]).
    destruct (N.le_gt_cases (N.of_nat m) (2 ^ 63)) as [Hle63|Hgt].
    + destruct (decide (m = 0)) as [->|Hm0].
      { change (N.of_nat 0) with 0%N. rewrite npot_0. unfold wrap. apply Nat.mod_0_l. lia. }
      destruct (npot_nat m ltac:(lia) Hle63) as (k & Hk & Hmk & Hmin). rewrite Hk.
      specialize (Hmin w ltac:(lia)). specialize (Hbig (2 ^ k) ltac:(by exists k) ltac:(lia)).
      assert (2 ^ k = itW) as -> by lia. unfold wrap. apply Nat.mod_same. lia.
    + assert (N.of_nat m < 2 ^ 64)%N as Hm64.
      { assert (N.of_nat (2 ^ w) <= 2 ^ 64)%N as Hle64; [|lia].
        replace w with (N.to_nat (N.of_nat w)) by lia. rewrite <- Hpow, N2Nat.id. apply N.pow_le_mono_r; lia. }
      rewrite npot_overflow by lia. unfold wrap. apply Nat.mod_0_l. lia.
Qed.
Example C49_ex : exists W : Widths, @itW W = 2 ^ 10 /\ @expand_block_size W (full [3; 9; 0; 5]) 4 = Ok 16 /\
  @expand_block_size W (full [3; 900]) 2 = Ok 0 /\ @expand_block_size W (full [0; 0]) 2 = Ok 0.
Proof. exists {| itW := 2 ^ 10; sitW := 2 ^ 5 |}. vm_compute. done. Qed.

(** ** C50 *)
Lemma settles_ret {V A} (p : prog V unit) (a : A) h hf : settles p h hf -> all_schedules (p ≫= fun _ => Ret a) h a hf.
Proof.
  intros (R & W & H1 & H2 & H3). eapply fp_all_schedules; [exact H1| |].
  - apply fp_bind; [exact H2|]. done.
  - rewrite run_bind, H3. done.
Qed.
Lemma sizes_of_offsets (sizes off : list nat) c s :
  (forall k, k <= length sizes -> nth k off 0 = sum_list (take k sizes)) -> sizes !! c = Some s -> nth (S c) off 0 = nth c off 0 + s.
Proof.
  intros Ho Hc. pose proof (lookup_lt_Some _ _ _ Hc). rewrite !Ho by lia. rewrite (take_S_r _ _ _ Hc).
  pose proof (sum_list_with_app id (take c sizes) [s]) as Ha. rewrite Ha. simpl. by rewrite Nat.add_0_r.
Qed.
Lemma offsets_below (sizes off : list nat) B c :
  (forall k, k <= length sizes -> nth k off 0 = sum_list (take k sizes)) -> (forall s, s ∈ sizes -> s <= B) ->
  c <= length sizes -> nth c off 0 <= c * B.
Proof.
  intros Ho HB. induction c as [|c IH]; intros Hc.
  - rewrite Ho by lia. done.
  - destruct (lookup_lt_is_Some_2 sizes c ltac:(lia)) as [s Hs]. rewrite (sizes_of_offsets sizes off c s Ho Hs).
    specialize (IH ltac:(lia)). specialize (HB s ltac:(by eapply elem_of_list_lookup_2)). lia.
Qed.

Definition expandable `{Widths} (sizes : list nat) : Prop :=
  (exists s, s ∈ sizes /\ 1 <= s) /\ (forall s, s ∈ sizes -> (N.of_nat s <= 2 ^ 63)%N) /\
  S (length sizes) < itW /\
  exists P, power_of_two P /\ length sizes * P < itW /\ forall s, s ∈ sizes -> s <= P.

(** what expansion to blocks of size B has to do: index i of block c goes to the same
    place of block c of the expanded blocking *)
Definition expands (off : list nat) (nb B : nat) (ex : nat -> nat) : Prop :=
  forall c i, c < nb -> in_block off c i -> ex i = c * B + (i - nth c off 0).

Theorem C50_expand `{Widths} (sizes : list nat) :
  let nb := length sizes in let n := sum_list sizes in
  expandable sizes ->
  exists (off : list nat) (B : nat) (ex : nat -> nat),
    blocking off nb n /\ (forall c s, sizes !! c = Some s -> nth (S c) off 0 = nth c off 0 + s) /\
    size_to_offset (new_arr (nb + 1)) (full sizes) nb = Ok (full off) /\
    power_of_two B /\ nb * B < itW /\ expands off nb B ex /\
    (** order, distinctness and blocks are kept *)
    (forall i j, i < j < n -> ex i < ex j) /\
    (forall c i, c < nb -> in_block off c i -> ex i / B = c /\ ex i < nb * B) /\
    (** the array variant *)
    (forall (b : buf) (l : list nat), Forall (fun i => i < n) l ->
       all_schedules (expand_indeces b (length l) (full sizes) nb) (heap_of b l) B (heap_of b (ex <$> l))) /\
    (** the element variant, for elements that carry their block id *)
    (forall T (b : buf) (E : list (elem T)),
       Forall (fun e => exists br bc, br < nb /\ bc < nb /\ in_block off br (row e) /\ in_block off bc (col e) /\ blk e = br * nb + bc) E ->
       all_schedules (expand_elements b (length E) (full sizes) (full off) nb) (heap_of b E) B
         (heap_of b ((fun e => Elem (ex (row e)) (ex (col e)) (val e) (blk e)) <$> E))).
Proof.
  intros nb n (Hpos & H63 & Hnb & P & HP & HPw & HPs). fold nb in Hnb, HPw.
  assert (1 <= nb) as Hnb1. { destruct Hpos as (s & Hs & _). unfold nb. destruct sizes; [by apply elem_of_nil in Hs|simpl; lia]. }
  destruct (C49_expand_block_size sizes) as (B & HB & HBp & HBs & HBmin); [done|done| |].
  { exists P. split; [done|]. split; [|done]. nia. }
  specialize (HBmin P HP HPs).
  assert (HnbB : nb * B < itW) by nia.
  assert (HB1 : 1 <= B) by (destruct Hpos as (s & Hs & ?); specialize (HBs s Hs); lia).
  assert (Hsum : forall l, (forall s, s ∈ l -> s <= B) -> sum_list l <= length l * B).
  { clear. intros l. induction l as [|a l IH]; intros Hl; [done|]. pose proof (Hl a ltac:(left)).
    change (sum_list (a :: l)) with (a + sum_list l). change (length (a :: l)) with (S (length l)). specialize (IH ltac:(intros; apply Hl; by right)). lia. }
  specialize (Hsum sizes HBs). fold n nb in Hsum.
  assert (Hnw : n < itW) by lia.
  assert (Hold : length (@new_arr nat (wadd nb 1)) = S (length sizes)).
  { unfold new_arr, wadd. rewrite replicate_length, wrap_small by lia. fold nb. lia. }
  destruct (C07_size_to_offset sizes (new_arr (wadd nb 1)) Hold Hnw) as (off & Hoff & Hlen & Ho).
  destruct (C07_blocking sizes (new_arr (wadd nb 1)) Hold Hnw) as (off' & Hoff' & Hbl).
  assert (off' = off) as -> by (rewrite Hoff in Hoff'; injection Hoff' as Hoff'; symmetry; by apply full_inj). clear Hoff'.
  fold nb in Hlen, Ho, Hoff. fold nb n in Hbl. idtac.
  set (ex := fun i => block_of off nb i * B + (i - nth (block_of off nb i) off 0)).
  assert (Hstep : forall c s, sizes !! c = Some s -> nth (S c) off 0 = nth c off 0 + s).
  { intros c s. by apply sizes_of_offsets. }
  assert (Hin : forall c i, c < nb -> in_block off c i -> i < n).
  { intros c i Hc [_ Hi]. pose proof Hbl as (_ & _ & Hn & _).
    assert (nth (S c) off 0 <= nth nb off 0); [|lia]. eapply blocking_mono; [exact Hbl| |]; lia. }
  assert (Hblk : forall c i, c < nb -> in_block off c i -> block_of off nb i = c).
  { intros c i Hc Hi. destruct (block_of_spec off nb n i Hbl (Hin c i Hc Hi)) as [H1 H2].
    eapply in_block_unique; [exact Hbl|done..]. }
  assert (Hex : expands off nb B ex).
  { intros c i Hc Hi. unfold ex. by rewrite (Hblk c i Hc Hi). }
  assert (Hrem : forall c i, c < nb -> in_block off c i -> i - nth c off 0 < B).
  { intros c i Hc [Hi1 Hi2]. destruct (lookup_lt_is_Some_2 sizes c Hc) as [s Hs]. rewrite (Hstep c s Hs) in Hi2.
    specialize (HBs s ltac:(by eapply elem_of_list_lookup_2)). lia. }
  assert (Hbelow : forall c, c <= nb -> nth c off 0 <= c * B).
  { intros c Hc. by apply (offsets_below sizes). }
  assert (Hdiv : forall c i, c < nb -> in_block off c i -> ex i / B = c /\ ex i < nb * B).
  { intros c i Hc Hi. rewrite (Hex c i Hc Hi). specialize (Hrem c i Hc Hi). split.
    - rewrite Nat.div_add_l by lia. rewrite Nat.div_small by done. lia.
    - assert (S c * B <= nb * B) by (apply Nat.mul_le_mono_r; lia). lia. }
  exists off, B, ex. split; [done|]. split; [done|].
  split; [rewrite <- Hoff; unfold wadd; rewrite wrap_small by lia; done|]. split; [done|]. split; [done|]. split; [done|]. split; [|split; [done|split]].
  - intros i j [Hij Hj]. destruct (block_of_spec off nb n i Hbl ltac:(lia)) as [Hci Hini].
    destruct (block_of_spec off nb n j Hbl Hj) as [Hcj Hinj].
    rewrite (Hex _ i Hci Hini), (Hex _ j Hcj Hinj).
    set (c := block_of off nb i) in *. set (d := block_of off nb j) in *.
    destruct (Nat.lt_trichotomy c d) as [Hlt|[Heq|Hgt]].
    + specialize (Hrem c i Hci Hini). assert (S c * B <= d * B) by (apply Nat.mul_le_mono_r; lia). lia.
    + rewrite <- Heq in *. destruct Hini, Hinj. lia.
    + exfalso. destruct Hini as [Hi1 _], Hinj as [_ Hj2].
      assert (nth (S d) off 0 <= nth c off 0) by (eapply blocking_mono; [exact Hbl|lia|lia]). lia.
  - intros b l Hl. unfold expand_indeces. change (length sizes) with nb in HB. rewrite HB. cbn [lift].
    change (all_schedules (block_offset ← lift (size_to_offset (new_arr (wadd nb 1)) (full sizes) nb);
      parfor (length l) 0 (fun i => v ← read (b, i); w ← lift (expand_index block_offset nb B v); write (b, i) w) ≫= fun _ => Ret B)
      (heap_of b l) B (heap_of b (ex <$> l))). rewrite Hoff. cbn [lift].
    apply (settles_ret (parfor (length l) 0 (fun i => v ← read (b, i); w ← lift (expand_index (full off) nb B v); write (b, i) w))).
    apply parfor_in_place; [by rewrite fmap_length| |].
    + intros i Hi. apply fp_bind; [by apply fp_read|]. intros v. apply fp_bind; [apply fp_lift|]. intros w. by apply fp_write.
    + intros i v w h Hv Hw Hh. rewrite list_lookup_fmap, Hv in Hw. injection Hw as <-.
      assert (v < n) as Hvn by (rewrite Forall_lookup in Hl; by eapply Hl).
      destruct (block_of_spec off nb n v Hbl Hvn) as [Hc Hiv].
      assert (expand_index (full off) nb B v = Ok (ex v)) as Hei.
      { unfold expand_index. rewrite (index_to_blockindex_spec off nb n) by (done || lia). cbn [mbind outcome_bind].
        rewrite aget_full, (lget_some off _ (nth (block_of off nb v) off 0)) by (apply nth_some; lia). cbn [mbind outcome_bind].
        destruct Hiv as [Hi1 Hi2]. destruct (Hdiv _ v Hc ltac:(done)) as [_ Hexb]. f_equal.
        rewrite (Hex _ v Hc ltac:(done)) in *. rewrite wsub_small by lia. unfold wmul, wadd.
        rewrite (wrap_small (block_of off nb v * B)) by lia. rewrite wrap_small by lia. lia. }
      simpl. rewrite Hh. rewrite Hei. simpl. by rewrite Hh.
  - intros T b E HE. unfold expand_elements. change (length sizes) with nb in HB. rewrite HB. cbn [lift].
    match goal with |- all_schedules (mbind ?k (Ret B)) _ _ _ => change (all_schedules (k B) (heap_of b E) B
      (heap_of b ((λ e : elem T, Elem (ex (row e)) (ex (col e)) (val e) (blk e)) <$> E))) end. cbv beta.
    apply settles_ret. apply parfor_in_place; [by rewrite fmap_length| |].
    + intros i Hi. apply fp_bind; [by apply fp_read|]. intros v. repeat (apply fp_bind; [apply fp_lift|]; intros ?).
      apply fp_bind; [by apply fp_write|]. intros _. apply fp_bind; [by apply fp_read|]. intros v'. by apply fp_write.
    + intros i e e' h He He' Hh. rewrite list_lookup_fmap, He in He'. injection He' as <-.
      rewrite Forall_lookup in HE. destruct (HE i e He) as (br & bc & Hbr & Hbc & Hir & Hic & Hid).
      assert (Hd : div_ (blk e) nb = Ok br).
      { rewrite div_ok by lia. f_equal. rewrite Hid. rewrite Nat.div_add_l by lia. rewrite Nat.div_small by done. lia. }
      assert (Hm : mod_ (blk e) nb = Ok bc).
      { rewrite mod_ok by lia. f_equal. rewrite Hid. rewrite Nat.add_comm, Nat.mod_add by lia. by apply Nat.mod_small. }
      assert (Hgr : aget (full off) br = Ok (nth br off 0)) by (rewrite aget_full; apply lget_some, nth_some; lia).
      assert (Hgc : aget (full off) bc = Ok (nth bc off 0)) by (rewrite aget_full; apply lget_some, nth_some; lia).
      assert (Hmr : wmul br B = br * B).
      { apply wrap_small. assert (br * B <= nb * B) by (apply Nat.mul_le_mono_r; lia). lia. }
      assert (Hmc : wmul bc B = bc * B).
      { apply wrap_small. assert (bc * B <= nb * B) by (apply Nat.mul_le_mono_r; lia). lia. }
      assert (Har : (nth br off 0 <=? wmul br B) = true) by (apply Nat.leb_le; rewrite Hmr; apply Hbelow; lia).
      assert (Hac : (nth bc off 0 <=? wmul bc B) = true) by (apply Nat.leb_le; rewrite Hmc; apply Hbelow; lia).
      assert (Hnr : forall c k, c < nb -> wmul c B = c * B -> in_block off c k -> wadd (wsub (wmul c B) (nth c off 0)) k = ex k).
      { intros c k Hc Hmul Hk. destruct (Hdiv c k Hc Hk) as [_ Hlt]. rewrite Hmul. specialize (Hbelow c ltac:(lia)).
        assert (c * B <= nb * B) by (apply Nat.mul_le_mono_r; lia). rewrite wsub_small by lia.
        rewrite (Hex c k Hc Hk) in *. destruct Hk. unfold wadd. rewrite wrap_small by lia. lia. }
      rewrite run_bind. simpl. rewrite Hh. cbn [mbind outcome_bind]. rewrite Hd. simpl. rewrite Hm. simpl.
      rewrite Hgr. simpl. rewrite Har. simpl. rewrite Hgc. simpl. rewrite Hac. simpl. rewrite Hh.
      rewrite upd_lookup, decide_True by done. simpl.
      f_equal. f_equal. apply map_eq. intros l. rewrite !upd_lookup. case_decide; [|done].
      do 2 f_equal. unfold set_col, set_row. simpl. f_equal; by apply Hnr.
Qed.
Example C50_ex : @expandable {| itW := 1000; sitW := 10 |} [3; 0; 5] /\
  @expand_index {| itW := 1000; sitW := 10 |} (full [0; 3; 3; 8]) 3 8 4 = Ok 17.
Proof.
  split; [|done]. split; [exists 3; split; [left|lia]|]. split.
  - intros s Hs. rewrite !elem_of_cons, elem_of_nil in Hs. lia.
  - split; [cbn; lia|]. exists 8. split; [by exists 3|]. split; [cbn; lia|].
    intros s Hs. rewrite !elem_of_cons, elem_of_nil in Hs. lia.
Qed.
