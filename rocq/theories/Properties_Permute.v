(** Properties_Permute.v: C46-C48, relabelling the rows and columns of a matrix
    (include/permute.h).  [p ≡ₚ seq 0 n] says that the list p is a permutation of
    0 .. n-1; [p !! i = Some v] says p[i] = v. *)
From Verif Require Import PermuteProof.

(** ** C46 *)
Theorem C46_invert_permutation (b : buf) (p : list nat) (n : nat) :
  p ≡ₚ seq 0 n ->
  exists q, all_schedules (invert_permutation b p n) ∅ tt (heap_of b q) /\ q ≡ₚ seq 0 n /\
    (forall i, i < n -> exists v, p !! i = Some v /\ q !! v = Some i) /\
    (forall i, i < n -> exists v, q !! i = Some v /\ p !! v = Some i).
Proof.
  intros Hp. exists (inverse p n). split; [by apply settles_all, invert_settles|]. split; [by apply inverse_perm|]. split.
  - intros i Hi. destruct (perm_lookup p n i Hp Hi) as (v & Hv & _). exists v. split; [done|]. by apply inverse_lookup.
  - intros i Hi. destruct (perm_onto p n i Hp Hi) as (v & Hv & _). exists v. split; [by apply inverse_lookup|done].
Qed.
(** an array of n indices that is not a permutation of 0 .. n-1 leads to a write outside
    the result or to two iterations writing the same cell without synchronisation *)
Theorem C46_not_a_permutation (b : buf) (p : list nat) (n : nat) :
  length p = n -> ~ p ≡ₚ seq 0 n ->
  exists p' h', rtc (step unit) (invert_permutation b p n, ∅) (p', h') /\ (faults p' h' \/ race p').
Proof.
  intros Hl Hnp.
  exists (parfor n 0 (fun k => v ← lift (lget p k); write (b, v) k)), (set_cells b n (Some None) ∅). split.
  { apply rtc_once. unfold invert_permutation. simpl. apply S_alloc. intros i _. apply lookup_empty. }
  destruct (decide (Forall (fun v => v < n) p)) as [Hb|Hb].
  - right. destruct (decide (NoDup p)) as [Hd|Hd].
    + exfalso. apply Hnp. apply perm_of_nodup; [done|done|]. by apply Forall_forall.
    + assert (exists i j v, i < j /\ p !! i = Some v /\ p !! j = Some v) as (i & j & v & Hij & Hi & Hj).
      { clear -Hd. induction p as [|a p IH]; [destruct Hd; constructor|].
        destruct (decide (a ∈ p)) as [Ha|Ha].
        - apply elem_of_list_lookup in Ha as [j Hj]. exists 0, (S j), a. split; [lia|]. done.
        - destruct IH as (i & j & v & Hij & Hi & Hj).
          + intros Hn. apply Hd. by constructor.
          + exists (S i), (S j), v. split; [lia|done]. }
      pose proof (lookup_lt_Some _ _ _ Hj). eapply (race_parfor _ (b, v) n 0 i j); [lia|lia| |].
      * rewrite (lget_some _ _ _ Hi). simpl. done.
      * rewrite (lget_some _ _ _ Hj). simpl. done.
  - left. apply not_Forall_Exists in Hb; [|apply _]. apply Exists_exists in Hb as (v & Hv & Hvn).
    apply elem_of_list_lookup in Hv as [i Hi]. pose proof (lookup_lt_Some _ _ _ Hi).
    apply (faults_parfor _ _ n 0 i); [lia|]. rewrite (lget_some _ _ _ Hi). simpl.
    rewrite set_cells_lookup. simpl. rewrite decide_False by (intros [_ ?]; done). apply lookup_empty.
Qed.
Lemma ex_perm4 : [2; 0; 3; 1] ≡ₚ seq 0 4.
Proof.
  apply perm_of_nodup; [done| |].
  - repeat (constructor; [rewrite ?elem_of_cons, elem_of_nil; lia|]). constructor.
  - intros v. rewrite !elem_of_cons, elem_of_nil. lia.
Qed.
Example C46_ex : [2; 0; 3; 1] ≡ₚ seq 0 4 /\ ~ [2; 0; 2; 1] ≡ₚ seq 0 4 /\
  run (invert_permutation [] [2; 0; 3; 1] 4) ∅ = Ok (tt, heap_of [] [1; 3; 0; 2]).
Proof.
  split; [|split].
  - exact ex_perm4.
  - intros Hp. assert (3 ∈ [2; 0; 2; 1]) as Hin by (rewrite Hp; apply elem_of_seq; lia).
    rewrite !elem_of_cons, elem_of_nil in Hin. lia.
  - destruct (invert_settles [] _ _ ex_perm4) as (_ & _ & _ & _ & Hr). exact Hr.
Qed.

(** ** C47 *)
(** [x'] is [x] with entry j moved to p[j] *)
Definition moved {T} (p : list nat) (x x' : list T) : Prop :=
  length x' = length x /\ forall j v, p !! j = Some v -> x' !! v = x !! j.

Lemma row_acc_relabel {T} `{Scalar T} (p : list nat) (n : nat) (E E' : list (elem T)) (x x' : list T) i v acc :
  p ≡ₚ seq 0 n -> moved p x x' -> p !! i = Some v ->
  Forall2 (fun e e' => p !! row e = Some (row e') /\ p !! col e = Some (col e') /\ val e' = val e) E E' ->
  row_acc E' x' v acc = row_acc E x i acc.
Proof.
  intros Hp [_ Hx] Hi HE. revert acc. induction HE as [|e e' E E' (Hr & Hc & Hv) _ IH]; intros acc; [done|].
  rewrite !row_acc_cons.
  assert (accum x' acc e' = accum x acc e) as ->.
  { unfold accum, at_. rewrite Hv. do 2 f_equal. rewrite !nth_lookup. by rewrite (Hx _ _ Hc). }
  destruct (Nat.eqb_spec (row e) i) as [Her|Hne].
  - assert (row e' = v) as -> by congruence. by rewrite Nat.eqb_refl.
  - destruct (Nat.eqb_spec (row e') v) as [Heq|]; [|by rewrite IH]. exfalso. apply Hne.
    rewrite Heq in Hr. by eapply perm_inj.
Qed.

Theorem C47_permute_commutes {T} `{Scalar T} (b : buf) (p : list nat) (n : nat) (E : list (elem T)) :
  p ≡ₚ seq 0 n -> in_range n n E ->
  exists E', all_schedules (permute_matrix b (length E) p) (heap_of b E) tt (heap_of b E') /\
    in_range n n E' /\ val <$> E' = val <$> E /\
    forall x x' y y', moved p x x' -> moved p y y' ->
      moved p (spmv_in_order E x y) (spmv_in_order E' x' y').
Proof.
  intros Hp HE. exists (relabel p <$> E).
  assert (Hl : forall k e, E !! k = Some e -> exists r c, p !! row e = Some r /\ r < n /\ p !! col e = Some c /\ c < n).
  { intros k e He. unfold in_range in HE. rewrite Forall_lookup in HE. destruct (HE k e He) as [H1 H2].
    destruct (perm_lookup p n _ Hp H1) as (r & Hr & ?). destruct (perm_lookup p n _ Hp H2) as (c & Hc & ?). eauto 10. }
  split; [|split; [|split]].
  - apply settles_all, permute_matrix_settles; [by rewrite fmap_length|]. intros i e e' He He'.
    rewrite list_lookup_fmap, He in He'. injection He' as <-. destruct (Hl i e He) as (r & c & Hr & _ & Hc & _).
    unfold relabel. simpl. by rewrite Hr, Hc.
  - apply Forall_lookup. intros i e' He'. rewrite list_lookup_fmap in He'. destruct (E !! i) as [e|] eqn:He; [|done].
    injection He' as <-. destruct (Hl i e He) as (r & c & Hr & ? & Hc & ?). unfold relabel. simpl. by rewrite Hr, Hc.
  - rewrite <- list_fmap_compose. done.
  - intros x x' y y' Hx [Hylen Hy]. split; [by rewrite !spmv_in_order_length|]. intros i v Hi.
    unfold spmv_in_order. rewrite !list_lookup_imap. rewrite (Hy i v Hi). destruct (y !! i) as [a|]; [|done]. simpl.
    f_equal. apply (row_acc_relabel p n); [done|done|done|]. apply Forall2_fmap_r. apply Forall_Forall2_diag. apply Forall_lookup.
    intros k e He. destruct (Hl k e He) as (r & c & Hr & _ & Hc & _). unfold relabel. simpl. by rewrite Hr, Hc.
Qed.
(** ... and with exact arithmetic P A P^T (P x) + P y = P (A x + y) *)
Theorem C47_permute_commutes_exact {T} `{Scalar T} (one : T) (b : buf) (p : list nat) (n : nat) (E : list (elem T)) :
  exact_arith T one -> p ≡ₚ seq 0 n -> in_range n n E ->
  exists E', all_schedules (permute_matrix b (length E) p) (heap_of b E) tt (heap_of b E') /\
    forall x x' y y', moved p x x' -> moved p y y' -> moved p (y_plus_Ax E n x y) (y_plus_Ax E' n x' y').
Proof.
  intros SR Hp HE. destruct (C47_permute_commutes b p n E Hp HE) as (E' & H1 & H2 & _ & H4). exists E'. split; [done|].
  intros x x' y y' Hx Hy. rewrite <- (spmv_in_order_exact one SR n E n) by done.
  rewrite <- (spmv_in_order_exact one SR n E' n) by done. by apply H4.
Qed.
Example C47_ex : [2; 0; 1] ≡ₚ seq 0 3 /\ in_range 3 3 [Elem 0 1 5%Z 0; Elem 2 2 7%Z 0; Elem 0 1 1%Z 0] /\
  moved [2; 0; 1] [10; 20; 30]%Z [20; 30; 10]%Z /\
  spmv_in_order [Elem 0 1 5%Z 0; Elem 2 2 7%Z 0; Elem 0 1 1%Z 0] [10; 20; 30]%Z [1; 1; 1]%Z = [121; 1; 211]%Z /\
  spmv_in_order [Elem 2 0 5%Z 0; Elem 1 1 7%Z 0; Elem 2 0 1%Z 0] [20; 30; 10]%Z [1; 1; 1]%Z = [1; 211; 121]%Z.
Proof.
  split; [apply perm_of_nodup; [done| |]|].
  { repeat (constructor; [rewrite ?elem_of_cons, elem_of_nil; lia|]). constructor. }
  { intros v. rewrite !elem_of_cons, elem_of_nil. lia. }
  split; [repeat (constructor; [cbn; lia|]); constructor|]. split; [|done].
  split; [done|]. intros j v Hj. do 3 (destruct j as [|j]; [simpl in Hj; by injection Hj as <-|]). done.
Qed.

(** ** C48 *)
Theorem C48_permute_back {T} (b : buf) (p q : list nat) (n : nat) (E : list (elem T)) :
  p ≡ₚ seq 0 n -> (forall i v, p !! i = Some v -> q !! v = Some i) -> in_range n n E ->
  all_schedules (permute_matrix b (length E) p ≫= fun _ => permute_matrix b (length E) q) (heap_of b E) tt (heap_of b E).
Proof.
  intros Hp Hq HE.
  assert (Hl : forall k e, E !! k = Some e -> exists r c, p !! row e = Some r /\ p !! col e = Some c).
  { intros k e He. unfold in_range in HE. rewrite Forall_lookup in HE. destruct (HE k e He) as [H1 H2].
    destruct (perm_lookup p n _ Hp H1) as (r & Hr & ?). destruct (perm_lookup p n _ Hp H2) as (c & Hc & ?). eauto 10. }
  apply settles_all. eapply settles_seq.
  - apply (permute_matrix_settles b p E (relabel p <$> E)); [by rewrite fmap_length|].
    intros i e e' He He'. rewrite list_lookup_fmap, He in He'. injection He' as <-. destruct (Hl i e He) as (r & c & Hr & Hc).
    unfold relabel. simpl. by rewrite Hr, Hc.
  - replace (length E) with (length (relabel p <$> E)) by apply fmap_length.
    apply (permute_matrix_settles b q (relabel p <$> E) E); [by rewrite fmap_length|].
    intros i e' e He' He. rewrite list_lookup_fmap, He in He'. injection He' as <-. destruct (Hl i e He) as (r & c & Hr & Hc).
    unfold relabel. simpl. rewrite Hr, Hc. simpl. rewrite (Hq _ _ Hr), (Hq _ _ Hc). done.
Qed.
Theorem C48_permute_array_back (b : buf) (p q : list nat) (n : nat) (l : list nat) :
  p ≡ₚ seq 0 n -> (forall i v, p !! i = Some v -> q !! v = Some i) -> Forall (fun i => i < n) l ->
  all_schedules (permute_array b p (length l) ≫= fun _ => permute_array b q (length l)) (heap_of b l) tt (heap_of b l).
Proof.
  intros Hp Hq Hl.
  assert (Hl' : forall k v, l !! k = Some v -> exists w, p !! v = Some w).
  { intros k v Hk. rewrite Forall_lookup in Hl. destruct (perm_lookup p n v Hp (Hl k v Hk)) as (w & Hw & _). eauto. }
  set (l' := (fun v => default 0 (p !! v)) <$> l).
  apply settles_all. eapply settles_seq.
  - apply (permute_array_settles b p l l'); [by apply fmap_length|]. intros i v w Hv Hw.
    unfold l' in Hw. rewrite list_lookup_fmap, Hv in Hw. injection Hw as <-. destruct (Hl' i v Hv) as [w Hw]. by rewrite Hw.
  - replace (length l) with (length l') by apply fmap_length.
    apply (permute_array_settles b q l' l); [symmetry; by apply fmap_length|]. intros i w v Hw Hv.
    unfold l' in Hw. rewrite list_lookup_fmap, Hv in Hw. injection Hw as <-. destruct (Hl' i v Hv) as [w Hw]. rewrite Hw. by apply Hq.
Qed.
(** the array and the matrix variant relabel alike *)
Theorem C48_array_is_matrix {T} (b : buf) (p : list nat) (n : nat) (E : list (elem T)) :
  p ≡ₚ seq 0 n -> in_range n n E ->
  exists E', all_schedules (permute_matrix b (length E) p) (heap_of b E) tt (heap_of b E') /\
    all_schedules (permute_array b p (length E)) (heap_of b (row <$> E)) tt (heap_of b (row <$> E')) /\
    all_schedules (permute_array b p (length E)) (heap_of b (col <$> E)) tt (heap_of b (col <$> E')).
Proof.
  intros Hp HE. exists (relabel p <$> E).
  assert (Hl : forall k e, E !! k = Some e -> exists r c, p !! row e = Some r /\ p !! col e = Some c).
  { intros k e He. unfold in_range in HE. rewrite Forall_lookup in HE. destruct (HE k e He) as [H1 H2].
    destruct (perm_lookup p n _ Hp H1) as (r & Hr & ?). destruct (perm_lookup p n _ Hp H2) as (c & Hc & ?). eauto 10. }
  split; [|split].
  - apply settles_all, permute_matrix_settles; [by rewrite fmap_length|]. intros i e e' He He'.
    rewrite list_lookup_fmap, He in He'. injection He' as <-. destruct (Hl i e He) as (r & c & Hr & Hc).
    unfold relabel. simpl. by rewrite Hr, Hc.
  - apply settles_all. replace (length E) with (length (row <$> E)) by apply fmap_length.
    apply permute_array_settles; [by rewrite !fmap_length|]. intros i v w Hv Hw. rewrite !list_lookup_fmap in *.
    destruct (E !! i) as [e|] eqn:He; [|done]. injection Hv as <-. injection Hw as <-.
    destruct (Hl i e He) as (r & c & Hr & Hc). by rewrite Hr.
  - apply settles_all. replace (length E) with (length (col <$> E)) by apply fmap_length.
    apply permute_array_settles; [by rewrite !fmap_length|]. intros i v w Hv Hw. rewrite !list_lookup_fmap in *.
    destruct (E !! i) as [e|] eqn:He; [|done]. injection Hv as <-. injection Hw as <-.
    destruct (Hl i e He) as (r & c & Hr & Hc). by rewrite Hc.
Qed.
Example C48_ex : (forall i v, [2; 0; 1] !! i = Some v -> [1; 2; 0] !! v = Some i) /\
  all_schedules (permute_array [] [2; 0; 1] 4) (heap_of [] [0; 2; 2; 1]) tt (heap_of [] [2; 1; 1; 0]) /\
  all_schedules (permute_array [] [1; 2; 0] 4) (heap_of [] [2; 1; 1; 0]) tt (heap_of [] [0; 2; 2; 1]).
Proof.
  split; [|split].
  - intros i v Hi. do 3 (destruct i as [|i]; [simpl in Hi; by injection Hi as <-|]). done.
  - apply settles_all, (permute_array_settles [] [2; 0; 1] [0; 2; 2; 1]); [done|].
    intros i v w. do 4 (destruct i as [|i]; [simpl; intros; by simplify_eq|]). done.
  - apply settles_all, (permute_array_settles [] [1; 2; 0] [2; 1; 1; 0]); [done|].
    intros i v w. do 4 (destruct i as [|i]; [simpl; intros; by simplify_eq|]). done.
Qed.
