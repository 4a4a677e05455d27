(** Count.v: lemmas about arrays filled left to right, counters, prefix sums and
    slices of sorted lists.  [incr] and [prefix_sum] are the only model
    definitions: the two loops every compressed format of /repo is built with. *)
From Verif Require Export Base Spec.

Section model.
  Context `{Widths}.
  (** [ptr[k]++] (for instance include/matrix/csr.1.h:94) *)
  Definition incr (ptr : arr nat) (k : nat) : outcome (arr nat) :=
    c ← aget ptr k; aset ptr k (wadd c 1).
  (** [for (i=0; i<n; i++) ptr[i+1] = ptr[i+1] + ptr[i]] (for instance
      include/matrix/csr.1.h:98-100) *)
  Definition prefix_sum (ptr : arr nat) (n : nat) : outcome (arr nat) :=
    for_range 0 n (fun i ptr => a ← aget ptr (i + 1); b ← aget ptr i; aset ptr (i + 1) (wadd a b)) ptr.
End model.

(** ** arrays filled left to right *)
Section fill.
  Context {A : Type}.
  Implicit Types l : list A.
  Definition part l (n : nat) : arr A := full l ++ new_arr (n - length l).
  Lemma part_nil n : part [] n = new_arr n.
  Proof. unfold part. simpl. by rewrite Nat.sub_0_r. Qed.
  Lemma part_full l : part l (length l) = full l.
  Proof. unfold part. rewrite Nat.sub_diag. apply app_nil_r. Qed.
  Lemma part_length l n : length l <= n -> length (part l n) = n.
  Proof. intros Hl. unfold part, new_arr. rewrite app_length, full_length, replicate_length. lia. Qed.
  Lemma part_set l n v : length l < n -> aset (part l n) (length l) v = Ok (part (l ++ [v]) n).
  Proof.
    intros Hl. rewrite aset_ok by (rewrite part_length; lia). f_equal. unfold part.
    rewrite insert_app_r_alt by (rewrite full_length; lia). rewrite full_length, Nat.sub_diag.
    replace (n - length l) with (S (n - S (length l))) by lia. simpl.
    unfold full. rewrite fmap_app, app_length. simpl.
    replace (n - (length l + 1)) with (n - S (length l)) by lia. by rewrite <- app_assoc.
  Qed.
  Lemma part_get l n i : i < length l -> aget (part l n) i = lget l i.
  Proof.
    intros Hi. unfold part. rewrite <- aget_full. unfold aget. rewrite lookup_app_l by (by rewrite full_length). done.
  Qed.
End fill.
Lemma take_S_snoc {A} (l : list A) i a : l !! i = Some a -> take (S i) l = take i l ++ [a].
Proof. apply take_S_r. Qed.

(** ** counters *)
Definition cntlt (K : list nat) (j : nat) : nat := length (bfilter (fun k => k <? j) K).
Definition cnteq (K : list nat) (j : nat) : nat := length (bfilter (fun k => k =? j) K).
Lemma cntlt_0 K : cntlt K 0 = 0.
Proof. unfold cntlt. induction K as [|k K IH]; simpl; [done|]. exact IH. Qed.
Lemma cntlt_S K j : cntlt K (S j) = cntlt K j + cnteq K j.
Proof.
  unfold cntlt, cnteq. induction K as [|k K IH]; simpl; [done|].
  destruct (Nat.ltb_spec k (S j)), (Nat.ltb_spec k j), (Nat.eqb_spec k j); simpl; lia.
Qed.
Lemma cntlt_mono K i j : i <= j -> cntlt K i <= cntlt K j.
Proof. induction 1; [done|]. rewrite cntlt_S. lia. Qed.
Lemma cntlt_le K j : cntlt K j <= length K.
Proof. unfold cntlt. induction K as [|k K IH]; simpl; [done|]. destruct (k <? j); simpl; lia. Qed.
Lemma cntlt_all K j : Forall (fun k => k < j) K -> cntlt K j = length K.
Proof.
  unfold cntlt. induction 1 as [|k K Hk _ IH]; simpl; [done|].
  rewrite (proj2 (Nat.ltb_lt k j)) by done. simpl. by rewrite IH.
Qed.
Lemma cnteq_le K j : cnteq K j <= length K.
Proof. unfold cnteq. induction K as [|k K IH]; simpl; [done|]. destruct (k =? j); simpl; lia. Qed.
Lemma cnteq_single k j : cnteq [k] j = if k =? j then 1 else 0.
Proof. unfold cnteq. simpl. by destruct (k =? j). Qed.
Lemma cnteq_app K1 K2 j : cnteq (K1 ++ K2) j = cnteq K1 j + cnteq K2 j.
Proof. unfold cnteq. rewrite bfilter_app, app_length. done. Qed.
Lemma cntlt_app K1 K2 j : cntlt (K1 ++ K2) j = cntlt K1 j + cntlt K2 j.
Proof. unfold cntlt. rewrite bfilter_app, app_length. done. Qed.
Lemma cnteq_take_le K i j : cnteq (take i K) j <= cnteq K j.
Proof. rewrite <- (take_drop i K) at 2. rewrite cnteq_app. lia. Qed.

(** the array after the counting loop has seen the keys K; m counters *)
Definition counters (K : list nat) (m : nat) : list nat :=
  (fun j => match j with O => 0 | S j => cnteq K j end) <$> seq 0 (S m).
(** the array after the prefix-sum loop has done j turns *)
Definition psums (K : list nat) (m j : nat) : list nat :=
  (fun j' => if j' <=? j then cntlt K j' else match j' with O => 0 | S p => cnteq K p end) <$> seq 0 (S m).
(** the finished pointers *)
Definition ptrs (K : list nat) (m : nat) : list nat := cntlt K <$> seq 0 (S m).

Lemma fmap_seq_lookup {A} (f : nat -> A) n i : i < n -> (f <$> seq 0 n) !! i = Some (f i).
Proof. intros Hi. rewrite list_lookup_fmap, lookup_seq_lt by done. done. Qed.
Lemma fmap_seq_insert {A} (f : nat -> A) n i v : i < n ->
  <[i := v]> (f <$> seq 0 n) = (fun j => if j =? i then v else f j) <$> seq 0 n.
Proof.
  intros Hi. apply list_eq. intros j. destruct (decide (j < n)) as [Hj|Hj].
  - rewrite (fmap_seq_lookup (fun j => if j =? i then v else f j)) by done. destruct (Nat.eqb_spec j i) as [->|Hne].
    + apply list_lookup_insert. by rewrite fmap_length, seq_length.
    + rewrite list_lookup_insert_ne by done. by apply fmap_seq_lookup.
  - rewrite !lookup_ge_None_2; [done| |]; rewrite ?insert_length, fmap_length, seq_length; lia.
Qed.
Lemma fmap_seq_ext {A} (f g : nat -> A) n : (forall i, i < n -> f i = g i) -> f <$> seq 0 n = g <$> seq 0 n.
Proof.
  intros Hfg. apply list_fmap_ext. intros i x Hx. apply lookup_seq in Hx as [-> Hi]. by apply Hfg.
Qed.
Lemma counters_nil m : full (counters [] m) = new_arr0 0 (S m).
Proof.
  unfold counters, new_arr0. apply list_eq. intros i. rewrite full_lookup.
  destruct (decide (i < S m)) as [Hi|Hi].
  - rewrite fmap_seq_lookup, lookup_replicate_2 by done. by destruct i.
  - rewrite !lookup_ge_None_2; [done| |]; rewrite ?replicate_length, ?fmap_length, ?seq_length; lia.
Qed.
Lemma ptrs_length K m : length (ptrs K m) = S m.
Proof. unfold ptrs. by rewrite fmap_length, seq_length. Qed.
Lemma ptrs_lookup K m j : j <= m -> ptrs K m !! j = Some (cntlt K j).
Proof. intros Hj. apply fmap_seq_lookup. lia. Qed.
Lemma ptrs_get K m j : j <= m -> aget (full (ptrs K m)) j = Ok (cntlt K j).
Proof. intros Hj. rewrite aget_full. apply lget_some. by apply ptrs_lookup. Qed.

Section incr.
  Context `{Widths}.
  Lemma incr_step K k m : k < m -> S (length K) < itW ->
    incr (full (counters K m)) (k + 1) = Ok (full (counters (K ++ [k]) m)).
  Proof.
    intros Hk Hw. unfold incr. rewrite aget_full. unfold counters.
    rewrite (lget_some _ (k + 1) (cnteq K k)).
    2:{ rewrite fmap_seq_lookup by lia. by replace (k + 1) with (S k) by lia. }
    cbn [mbind outcome_bind]. rewrite aset_full by (rewrite fmap_length, seq_length; lia).
    f_equal. f_equal. rewrite fmap_seq_insert by lia. apply fmap_seq_ext. intros [|j] Hj.
    - by rewrite (proj2 (Nat.eqb_neq 0 (k + 1))) by lia.
    - rewrite cnteq_app, cnteq_single.
      destruct (Nat.eqb_spec (S j) (k + 1)) as [Heq|Hne].
      + assert (k = j) as -> by lia. rewrite Nat.eqb_refl.
        apply wrap_small. pose proof (cnteq_le K j). lia.
      + rewrite (proj2 (Nat.eqb_neq k j)) by lia. lia.
  Qed.
  Lemma prefix_sum_spec K m : length K < itW ->
    prefix_sum (full (counters K m)) m = Ok (full (ptrs K m)).
  Proof.
    intros Hw. apply wp_eq. unfold prefix_sum.
    assert (Hw2 : wp (for_range 0 m (fun i ptr => a ← aget ptr (i + 1); b ← aget ptr i; aset ptr (i + 1) (wadd a b)) (full (counters K m)))
              (fun r => r = full (psums K m m))).
    { apply (wp_for_range (fun j r => r = full (psums K m j))); [lia| |].
      - f_equal. unfold counters, psums. apply fmap_seq_ext. intros [|j] Hj; simpl; [by rewrite cntlt_0|done].
      - intros j r Hj ->. rewrite !aget_full. unfold psums.
        rewrite (lget_some _ (j + 1) (cnteq K j)).
        2:{ rewrite fmap_seq_lookup by lia. replace (j + 1) with (S j) by lia.
            by rewrite (proj2 (Nat.leb_gt (S j) j)) by lia. }
        rewrite (lget_some _ j (cntlt K j)).
        2:{ rewrite fmap_seq_lookup by lia. by rewrite Nat.leb_refl. }
        cbn [mbind outcome_bind]. rewrite aset_full by (rewrite fmap_length, seq_length; lia).
        cbn [wp]. f_equal. rewrite fmap_seq_insert by lia. apply fmap_seq_ext. intros i Hi.
        destruct (Nat.eqb_spec i (j + 1)) as [->|Hne].
        + rewrite (proj2 (Nat.leb_le (j + 1) (S j))) by lia. replace (j + 1) with (S j) by lia. rewrite cntlt_S.
          unfold wadd. rewrite wrap_small; [lia|]. rewrite Nat.add_comm, <- cntlt_S. pose proof (cntlt_le K (S j)). lia.
        + destruct (Nat.leb_spec i j), (Nat.leb_spec i (S j)); try done; lia. }
    eapply wp_mono; [exact Hw2|]. intros r ->. f_equal. unfold psums, ptrs. apply fmap_seq_ext.
    intros j Hj. by rewrite (proj2 (Nat.leb_le j m)) by lia.
  Qed.
End incr.

(** ** slices of sorted lists *)
Section slices.
  Context {A : Type} (key : A -> nat).
  Implicit Types l : list A.
  Definition ksorted l : Prop := StronglySorted (fun a b => key a <= key b) l.
  Definition slice {B} (s n : nat) (l : list B) : list B := take n (drop s l).
  Definition has (j : nat) (a : A) : bool := key a =? j.
  Lemma ksorted_split l j : ksorted l ->
    l = bfilter (fun a => key a <? j) l ++ bfilter (has j) l ++ bfilter (fun a => j <? key a) l.
  Proof.
    induction 1 as [|a l Hs IH Hf]; [done|]. simpl. unfold has at 1.
    rewrite Forall_forall in Hf.
    assert (Hnil : forall f : A -> bool, (forall b, b ∈ l -> f b = false) -> bfilter f l = []).
    { intros f Hff. clear -Hff. induction l as [|b l IHl]; [done|]. simpl.
      rewrite (Hff b) by left. apply IHl. intros c Hc. apply Hff. by right. }
    destruct (Nat.ltb_spec (key a) j) as [H1|H1].
    - rewrite (proj2 (Nat.eqb_neq (key a) j)) by lia. rewrite (proj2 (Nat.ltb_ge j (key a))) by lia.
      simpl. by rewrite <- IH.
    - destruct (Nat.eqb_spec (key a) j) as [H2|H2].
      + rewrite (proj2 (Nat.ltb_ge j (key a))) by lia. rewrite (Hnil (fun b => key b <? j)).
        * simpl. f_equal. rewrite IH at 1. rewrite (Hnil (fun b => key b <? j)); [done|].
          intros b Hb. specialize (Hf b Hb). apply Nat.ltb_ge. lia.
        * intros b Hb. specialize (Hf b Hb). apply Nat.ltb_ge. lia.
      + rewrite (proj2 (Nat.ltb_lt j (key a))) by lia. rewrite (Hnil (fun b => key b <? j)), (Hnil (has j)).
        * simpl. f_equal. rewrite IH at 1. rewrite (Hnil (fun b => key b <? j)), (Hnil (has j)); [done| |].
          -- intros b Hb. specialize (Hf b Hb). apply Nat.eqb_neq. lia.
          -- intros b Hb. specialize (Hf b Hb). apply Nat.ltb_ge. lia.
        * intros b Hb. specialize (Hf b Hb). apply Nat.eqb_neq. lia.
        * intros b Hb. specialize (Hf b Hb). apply Nat.ltb_ge. lia.
  Qed.
  Lemma cntlt_fmap l j : cntlt (key <$> l) j = length (bfilter (fun a => key a <? j) l).
  Proof.
    unfold cntlt. induction l as [|a l IH]; [done|]. rewrite fmap_cons. cbn [List.filter].
    destruct (key a <? j); cbn [length]; by rewrite IH.
  Qed.
  Lemma cnteq_fmap l j : cnteq (key <$> l) j = length (bfilter (has j) l).
  Proof.
    unfold cnteq, has. induction l as [|a l IH]; [done|]. rewrite fmap_cons. cbn [List.filter].
    destruct (key a =? j); cbn [length]; by rewrite IH.
  Qed.
  Lemma sorted_slice l j : ksorted l ->
    slice (cntlt (key <$> l) j) (cntlt (key <$> l) (S j) - cntlt (key <$> l) j) l = bfilter (has j) l.
  Proof.
    intros Hs. rewrite cntlt_S, cnteq_fmap, cntlt_fmap. unfold slice.
    pose proof (ksorted_split l j Hs) as Hl.
    set (L := bfilter (fun a => key a <? j) l) in *. set (M := bfilter (has j) l) in *.
    set (R := bfilter (fun a => j <? key a) l) in *.
    rewrite Hl. rewrite drop_app_alt by done.
    replace (length L + length M - length L) with (length M) by lia. by rewrite take_app_alt.
  Qed.
  Lemma slice_length {B} s n (l : list B) : s + n <= length l -> length (slice s n l) = n.
  Proof. intros Hl. unfold slice. rewrite take_length, drop_length. lia. Qed.
  Lemma slice_lookup {B} s n (l : list B) i : i < n -> slice s n l !! i = l !! (s + i).
  Proof. intros Hi. unfold slice. rewrite lookup_take by done. by rewrite lookup_drop. Qed.
End slices.
Lemma fold_seq_slice {A B} (f : B -> A -> B) (g : B -> nat -> B) (l : list A) s n :
  (forall i a acc, s <= i < s + n -> l !! i = Some a -> g acc i = f acc a) ->
  s + n <= length l -> forall acc, fold_left g (seq s n) acc = fold_left f (slice s n l) acc.
Proof.
  revert s. induction n as [|n IH]; intros s Hg Hl acc; [done|].
  destruct (lookup_lt_is_Some_2 l s) as [a Ha]; [lia|].
  assert (slice s (S n) l = a :: slice (S s) n l) as ->.
  { unfold slice. rewrite (drop_S l a s) by done. done. }
  cbn [seq fold_left]. rewrite (Hg s a) by (done || lia). apply IH; [|lia].
  intros i a' acc' Hi. apply Hg. lia.
Qed.
Lemma filter_has_map {A} (key : A -> nat) j (l : list A) : Forall (fun a => key a = j) (bfilter (has key j) l).
Proof. apply Forall_forall. intros a Ha. apply elem_of_list_In, filter_In in Ha as [_ Ha]. by apply Nat.eqb_eq. Qed.
