(** PermuteProof.v: proofs about Permute.v.  (No model definitions in this file.) *)
From Verif Require Export Permute ParCells.

Lemma perm_lookup (p : list nat) n i : p ≡ₚ seq 0 n -> i < n -> exists v, p !! i = Some v /\ v < n.
Proof.
  intros Hp Hi. assert (length p = n) as Hl by (by rewrite Hp, seq_length).
  destruct (lookup_lt_is_Some_2 p i) as [v Hv]; [lia|]. exists v. split; [done|].
  assert (v ∈ seq 0 n) as Hin by (rewrite <- Hp; by eapply elem_of_list_lookup_2). apply elem_of_seq in Hin. lia.
Qed.
Lemma perm_onto (p : list nat) n v : p ≡ₚ seq 0 n -> v < n -> exists i, p !! i = Some v /\ i < n.
Proof.
  intros Hp Hv. assert (v ∈ p) as Hin by (rewrite Hp; apply elem_of_seq; lia).
  apply elem_of_list_lookup in Hin as [i Hi]. exists i. split; [done|].
  apply lookup_lt_Some in Hi. by rewrite Hp, seq_length in Hi.
Qed.
Lemma perm_inj (p : list nat) n i j v : p ≡ₚ seq 0 n -> p !! i = Some v -> p !! j = Some v -> i = j.
Proof.
  intros Hp Hi Hj. apply (NoDup_lookup p i j v); [|done|done]. rewrite Hp. apply NoDup_seq.
Qed.
Lemma perm_of_nodup (p : list nat) n : length p = n -> NoDup p -> (forall v, v ∈ p -> v < n) -> p ≡ₚ seq 0 n.
Proof.
  intros Hl Hn Hb. apply submseteq_Permutation_length_le.
  - rewrite seq_length. lia.
  - apply NoDup_submseteq; [done|]. intros v Hv. apply elem_of_seq. specialize (Hb v Hv). lia.
Qed.

Definition position (p : list nat) (v : nat) : nat :=
  match list_find (eq v) p with Some (i, _) => i | None => 0 end.
Definition inverse (p : list nat) (n : nat) : list nat := position p <$> seq 0 n.
Lemma position_spec (p : list nat) n i v : p ≡ₚ seq 0 n -> p !! i = Some v -> position p v = i.
Proof.
  intros Hp Hi. unfold position. destruct (list_find (eq v) p) as [[j w]|] eqn:Ef.
  - apply list_find_Some in Ef as (Hj & Heq & _). subst w. by eapply perm_inj.
  - apply list_find_None in Ef. rewrite Forall_lookup in Ef. by destruct (Ef i v).
Qed.
Lemma inverse_length (p : list nat) n : length (inverse p n) = n.
Proof. unfold inverse. by rewrite fmap_length, seq_length. Qed.
Lemma inverse_lookup (p : list nat) n i v : p ≡ₚ seq 0 n -> p !! i = Some v -> inverse p n !! v = Some i.
Proof.
  intros Hp Hi. unfold inverse. rewrite list_lookup_fmap.
  assert (v < n) as Hv. { assert (v ∈ seq 0 n) as Hin by (rewrite <- Hp; by eapply elem_of_list_lookup_2). apply elem_of_seq in Hin. lia. }
  rewrite lookup_seq_lt by done. simpl. f_equal. by apply (position_spec p n).
Qed.
Lemma inverse_perm (p : list nat) n : p ≡ₚ seq 0 n -> inverse p n ≡ₚ seq 0 n.
Proof.
  intros Hp. apply perm_of_nodup.
  - unfold inverse. by rewrite fmap_length, seq_length.
  - apply NoDup_alt. intros i j v Hi Hj.
    assert (i < n) as Hin. { apply lookup_lt_Some in Hi. unfold inverse in Hi. by rewrite fmap_length, seq_length in Hi. }
    assert (j < n) as Hjn. { apply lookup_lt_Some in Hj. unfold inverse in Hj. by rewrite fmap_length, seq_length in Hj. }
    destruct (perm_onto p n i Hp Hin) as (a & Ha & _). destruct (perm_onto p n j Hp Hjn) as (c & Hc & _).
    rewrite (inverse_lookup p n a i Hp Ha) in Hi. rewrite (inverse_lookup p n c j Hp Hc) in Hj. congruence.
  - intros v Hv. apply elem_of_list_lookup in Hv as [i Hi].
    assert (i < n) as Hin. { apply lookup_lt_Some in Hi. unfold inverse in Hi. by rewrite fmap_length, seq_length in Hi. }
    destruct (perm_onto p n i Hp Hin) as (a & Ha & Han). rewrite (inverse_lookup p n a i Hp Ha) in Hi. by simplify_eq.
Qed.

Lemma invert_settles (b : buf) (p : list nat) n : p ≡ₚ seq 0 n ->
  settles (invert_permutation b p n) ∅ (heap_of b (inverse p n)).
Proof.
  intros Hp. unfold invert_permutation. eapply settles_seq.
  - exists (rng b 0 n), (rng b 0 n). split; [done|]. split.
    + split; [|done]. intros i Hi. split; simpl; [done|lia].
    + simpl. rewrite (proj2 (all_freeb_spec b n ∅)); [done|]. intros i _. apply lookup_empty.
  - set (c := fun k => (b, default 0 (p !! k))).
    destruct (parfor_cells c (fun k => v ← lift (lget p k); write (b, v) k) (fun k => Some k) n 0
      (set_cells b n (Some None) ∅) (heap_of b (inverse p n))) as [H1 H2].
    + intros i j Hi Hj Heq. destruct (perm_lookup p n i Hp ltac:(lia)) as (v & Hv & _).
      destruct (perm_lookup p n j Hp ltac:(lia)) as (w & Hw & _). unfold c in Heq. rewrite Hv, Hw in Heq. simpl in Heq.
      injection Heq as ->. by eapply perm_inj.
    + intros i Hi. destruct (perm_lookup p n i Hp ltac:(lia)) as (v & Hv & _). unfold c. rewrite Hv. simpl.
      unfold lget. rewrite Hv. simpl. split; done.
    + intros i h' Hi Hh. destruct (perm_lookup p n i Hp ltac:(lia)) as (v & Hv & Hvn). unfold c in *. rewrite Hv in *. simpl in *.
      unfold lget. rewrite Hv. simpl. rewrite Hh, set_cells_lookup. simpl. by rewrite decide_True by done.
    + intros i Hi. destruct (perm_lookup p n i Hp ltac:(lia)) as (v & Hv & Hvn). unfold c. rewrite Hv. simpl.
      rewrite heap_of_lookup. simpl. rewrite (inverse_lookup p n i v) by done.
      rewrite decide_True; [done|]. split; [done|]. unfold inverse. by rewrite fmap_length, seq_length.
    + intros [b' v] Hl. rewrite heap_of_lookup, set_cells_lookup. simpl. rewrite inverse_length.
      destruct (decide (b' = b /\ v < n)) as [[-> Hv]|]; [|by rewrite lookup_empty].
      exfalso. destruct (perm_onto p n v Hp Hv) as (i & Hi & Hin). apply (Hl i); [lia|]. unfold c. by rewrite Hi.
    + eexists _, _. split; [|split; [exact H1|exact H2]]. done.
Qed.

Lemma next_parfor {V} (body : nat -> prog V unit) l w n : forall lo i, lo <= i < lo + n -> next (body i) l w -> next (parfor n lo body) l w.
Proof.
  induction n as [|n IH]; intros lo i Hi Hn; [lia|]. cbn [parfor next].
  destruct (decide (i = lo)) as [->|]; [by left|]. right. apply (IH _ i); [lia|done].
Qed.
Lemma race_parfor {V} (body : nat -> prog V unit) l n : forall lo i j, lo <= i < j -> j < lo + n ->
  next (body i) l true -> next (body j) l true -> race (parfor n lo body).
Proof.
  induction n as [|n IH]; intros lo i j Hi Hj Hni Hnj; [lia|]. cbn [parfor race].
  destruct (decide (i = lo)) as [->|].
  - right. right. exists l, true, true. split; [done|]. split; [|by left]. apply (next_parfor _ _ _ _ _ j); [lia|done].
  - right. left. apply (IH _ i j); [lia|lia|done|done].
Qed.
Lemma faults_parfor {V} (body : nat -> prog V unit) h n : forall lo i, lo <= i < lo + n -> faults (body i) h -> faults (parfor n lo body) h.
Proof.
  induction n as [|n IH]; intros lo i Hi Hn; [lia|]. cbn [parfor faults].
  destruct (decide (i = lo)) as [->|]; [by left|]. right. apply (IH _ i); [lia|done].
Qed.

Lemma permute_array_settles (b : buf) (p l l' : list nat) :
  length l' = length l ->
  (forall i v w, l !! i = Some v -> l' !! i = Some w -> p !! v = Some w) ->
  settles (permute_array b p (length l)) (heap_of b l) (heap_of b l').
Proof.
  intros Hlen Hp. unfold permute_array. apply parfor_in_place; [done| |].
  - intros i Hi. apply fp_bind; [by apply fp_read|]. intros v. apply fp_bind; [apply fp_lift|]. intros w. by apply fp_write.
  - intros i v w h Hv Hw Hh. simpl. rewrite Hh. unfold lget. rewrite (Hp i v w) by done. simpl. by rewrite Hh.
Qed.

Definition relabel {T} (p : list nat) (e : elem T) : elem T :=
  Elem (default 0 (p !! row e)) (default 0 (p !! col e)) (val e) (blk e).
Lemma permute_matrix_settles {T} (b : buf) (p : list nat) (E E' : list (elem T)) :
  length E' = length E ->
  (forall i e e', E !! i = Some e -> E' !! i = Some e' ->
     p !! row e = Some (row e') /\ p !! col e = Some (col e') /\ val e' = val e /\ blk e' = blk e) ->
  settles (permute_matrix b (length E) p) (heap_of b E) (heap_of b E').
Proof.
  intros Hlen Hp. unfold permute_matrix. apply parfor_in_place; [done| |].
  - intros i Hi. apply fp_bind; [by apply fp_read|]. intros v. apply fp_bind; [apply fp_lift|]. intros w.
    apply fp_bind; [by apply fp_write|]. intros _. apply fp_bind; [by apply fp_read|]. intros v'.
    apply fp_bind; [apply fp_lift|]. intros w'. by apply fp_write.
  - intros i e e' h He He' Hh. destruct (Hp i e e' He He') as (Hr & Hc & Hv & Hb).
    rewrite run_bind. simpl. rewrite Hh. cbn [mbind outcome_bind]. rewrite (lget_some _ _ _ Hr). simpl. rewrite Hh.
    rewrite upd_lookup, decide_True by done. simpl. rewrite (lget_some _ _ _ Hc). simpl.
    rewrite upd_lookup, decide_True by done.
    f_equal. f_equal. apply map_eq. intros l. rewrite !upd_lookup. case_decide; [|done].
    do 2 f_equal. destruct e as [r c v k], e' as [r' c' v' k']; simpl in *; subst. done.
Qed.
