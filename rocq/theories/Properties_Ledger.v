(** Properties_Ledger.v: C68, what is released and how, for every number of blocks, of block
    rows and every mixture of block formats, whatever else is live. *)
From Verif Require Import Base Ledger LedgerProof.
From stdpp Require Import gmap.

(** ** Specification *)
(** addresses not yet handed out are not live *)
Definition valid (m : ledger) : Prop := forall p f, l_live m !! p = Some f -> p < l_next m.
(** building and then releasing leaves exactly the memory that was live before plus [k] pieces
    that nobody will release *)
Definition leaks {R} (k : nat) (make : led R) (rel : R -> led unit) : Prop :=
  forall m, valid m -> exists r m1 m2 lost, make m = Ok (r, m1) /\ rel r m1 = Ok (tt, m2) /\
    l_live m2 = lost ∪ l_live m /\ lost ##ₘ l_live m /\ size lost = k.
(** every piece is released exactly once, and nothing else is touched *)
Definition clean {R} (make : led R) (rel : R -> led unit) : Prop :=
  forall m, valid m -> exists r m1 m2, make m = Ok (r, m1) /\ rel r m1 = Ok (tt, m2) /\ l_live m2 = l_live m.
(** releasing what was built is undefined behaviour: a wrong deallocator or a double free *)
Definition bad_release {R} (make : led R) (rel : R -> led unit) : Prop :=
  forall m, valid m -> exists r m1, make m = Ok (r, m1) /\ rel r m1 = Undef BadFree.

Lemma valid_owns m : valid m -> owns [] (l_live m) m.
Proof. intros Hv. split; [by rewrite list_to_map_nil, (left_id_L ∅ (∪))|]. split; [constructor|]. split; [|done]. intros c Hc. by apply elem_of_nil in Hc. Qed.
Lemma size_cells (o : list cell) : NoDup o.*1 -> size (list_to_map o : gmap nat family) = length o.
Proof.
  induction o as [|[p f] o IH]; cbn; [done|]. intros [Hp Ho]%NoDup_cons. rewrite map_size_insert_None by (by apply not_elem_of_list_to_map_1). by rewrite IH.
Qed.
Lemma leaks_hoare {R} k (make : led R) rel Q : hoare [] make Q -> (forall r o, Q r o -> hoare o (rel r) (fun _ o' => length o' = k)) -> leaks k make rel.
Proof.
  intros Hm Hr m Hv%valid_owns. destruct (Hm _ _ Hv) as (r & m1 & o1 & E1 & Ho1 & HQ).
  destruct (Hr r o1 HQ _ _ Ho1) as ([] & m2 & o2 & E2 & (L1 & L2 & L3 & L4) & Hk).
  exists r, m1, m2, (list_to_map o2). split; [done|]. split; [done|]. split; [done|]. split.
  - apply map_disjoint_spec. intros i x y Hx Hy. apply elem_of_list_to_map_2 in Hx. specialize (L3 _ Hx). cbn in L3. congruence.
  - rewrite <- Hk. by apply size_cells.
Qed.
Lemma clean_hoare {R} (make : led R) rel Q : hoare [] make Q -> (forall r o, Q r o -> hoare o (rel r) (fun _ o' => o' = [])) -> clean make rel.
Proof.
  intros Hm Hr m Hv%valid_owns. destruct (Hm _ _ Hv) as (r & m1 & o1 & E1 & Ho1 & HQ).
  destruct (Hr r o1 HQ _ _ Ho1) as ([] & m2 & o2 & E2 & (L1 & _) & ->). exists r, m1, m2. split; [done|]. split; [done|].
  by rewrite L1, list_to_map_nil, (left_id_L ∅ (∪)).
Qed.
Lemma bad_hoare {R} (make : led R) rel Q : hoare [] make Q -> (forall r o, Q r o -> fails o (rel r) BadFree) -> bad_release make rel.
Proof.
  intros Hm Hr m Hv%valid_owns. destruct (Hm _ _ Hv) as (r & m1 & o1 & E1 & Ho1 & HQ). exists r, m1. split; [done|]. by apply (Hr r o1 HQ (l_live m)).
Qed.

(** ** what each builder owns, in the order of its release *)
Notation M p := (p, FMalloc). Notation A_ p := (p, FNewArray). Notation N_ p := (p, FNew).
Definition cells_of (f : family) (l : list nat) : list cell := (fun p => (p, f)) <$> l.
Definition cells_part (P : nat * list nat) : list cell := cells_of FNew P.2 ++ [A_ P.1].
Definition cells_block (B : block_mem) : list cell :=
  match B with BmCoo (i, j, v) => [A_ i; A_ j; A_ v] | BmCsr (v, c, r) => [A_ v; A_ r; A_ c] | BmDense p => [A_ p] end.
Definition cells_object (O : nat * block_mem) : list cell :=
  match O.2 with BmDense _ => [] | B => cells_block B end ++ [N_ O.1].
Definition lost_object (O : nat * block_mem) : list cell := match O.2 with BmDense p => [A_ p] | _ => [] end.
Definition has_shape (s : shape) (B : block_mem) : Prop :=
  match s, B with SCoo, BmCoo _ | SCsr, BmCsr _ | SDense, BmDense _ => True | _, _ => False end.
Definition dense_count (l : list shape) : nat := length (List.filter (fun s => match s with SDense => true | _ => false end) l).

Ltac al := eapply hoare_bind; [apply hoare_alloc|]; let p := fresh "p" in let o := fresh "o" in intros p o [-> _].
Ltac fr := eapply hoare_bind; [by apply hoare_dealloc|]; intros [] ? ->.
Lemma hoare_perm_ret {R} own own' (r : R) (Q : R -> list cell -> Prop) : own ≡ₚ own' -> (forall o, o ≡ₚ own' -> Q r o) -> hoare own (mret r) Q.
Proof. intros Hp HQ. apply hoare_ret. by apply HQ. Qed.

Lemma part_new own n : hoare own (partition_new n) (fun P o => o ≡ₚ cells_part P ++ own).
Proof.
  unfold partition_new. al. eapply hoare_bind; [apply hoare_times|]. intros l o (Hl & Ho). apply hoare_ret.
  unfold cells_part, cells_of. cbn. rewrite Ho. solve_Permutation.
Qed.
Lemma part_delete strict own P : hoare (cells_part P ++ own) (partition_delete strict P) (fun _ o => o ≡ₚ own).
Proof.
  unfold partition_delete, cells_part. rewrite <- app_assoc. eapply hoare_bind; [by apply hoare_free_each|]. intros [] o Ho.
  eapply hoare_perm; [exact Ho|]. eapply hoare_weaken; [by apply hoare_dealloc|]. by intros ? ? ->.
Qed.
Lemma block_new_spec own s : hoare own (block_new s) (fun B o => has_shape s B /\ o ≡ₚ cells_block B ++ own).
Proof.
  destruct s; unfold block_new, coo_new, csr_new, one_new.
  - eapply (hoare_bind _ _ _ _ (fun p o => o ≡ₚ cells_block (BmCoo p) ++ own)); [do 3 al; apply hoare_ret; cbn; solve_Permutation|].
    intros p o Ho. by apply hoare_ret.
  - eapply (hoare_bind _ _ _ _ (fun p o => o ≡ₚ cells_block (BmCsr p) ++ own)); [do 3 al; apply hoare_ret; cbn; solve_Permutation|].
    intros p o Ho. by apply hoare_ret.
  - al. by apply hoare_ret.
Qed.
Lemma block_release_spec strict own B : hoare (cells_block B ++ own) (block_release strict B) (fun _ o => o ≡ₚ own).
Proof.
  destruct B as [[[i j] v]|[[v c] r]|p]; cbn [block_release cells_block app]; unfold coo_release, csr_release, one_release.
  - do 2 fr. eapply hoare_weaken; [by apply hoare_dealloc|]. by intros ? ? ->.
  - do 2 fr. eapply hoare_weaken; [by apply hoare_dealloc|]. by intros ? ? ->.
  - eapply hoare_weaken; [by apply hoare_dealloc|]. by intros ? ? ->.
Qed.
Lemma object_new_spec own s : hoare own (object_new s) (fun O o => has_shape s O.2 /\ o ≡ₚ (cells_object O ++ lost_object O) ++ own).
Proof.
  unfold object_new. al. eapply hoare_bind; [apply block_new_spec|]. intros B o (Hs & Ho). apply hoare_ret. split; [done|].
  rewrite Ho. unfold cells_object, lost_object. destruct B as [[[i j] v]|[[v c] r]|q]; cbn; solve_Permutation.
Qed.
Lemma object_delete_spec strict own O : hoare (cells_object O ++ own) (object_delete strict O) (fun _ o => o ≡ₚ own).
Proof.
  destruct O as [p B]. unfold object_delete, cells_object. cbn [fst snd]. rewrite <- app_assoc.
  eapply (hoare_bind _ _ _ _ (fun _ o => o ≡ₚ N_ p :: own)).
  - destruct B as [q|q|q].
    + apply (block_release_spec strict _ (BmCoo q)).
    + apply (block_release_spec strict _ (BmCsr q)).
    + by apply hoare_ret.
  - intros [] o Ho. eapply hoare_perm; [exact Ho|]. eapply hoare_weaken; [by apply hoare_dealloc|]. by intros ? ? ->.
Qed.

(** the offsets: [f] is where they come from *)
Definition cells_off (f : family) (r c : nat) : list cell := if c =? r then [(r, f)] else [(c, f); (r, f)].
Lemma with_offsets_spec {R} f same (k : nat -> nat -> led R) Q :
  (forall r c, c = r /\ same = true \/ c <> r /\ same = false -> hoare (cells_off f r c) (k r c) Q) -> hoare [] (with_offsets f same k) Q.
Proof.
  intros Hk. unfold with_offsets. al. destruct same.
  - eapply (hoare_bind _ _ _ _ (fun c o => c = p /\ o = [(p, f)])); [by apply hoare_ret|]. intros c o [-> ->].
    specialize (Hk p p). unfold cells_off in Hk. rewrite Nat.eqb_refl in Hk. auto.
  - eapply hoare_bind; [apply hoare_alloc|]. intros c o [-> Hc]. cbn in Hc.
    assert (c <> p) by (intros ->; apply Hc; constructor).
    specialize (Hk p c). unfold cells_off in Hk. destruct (c =? p) eqn:E; [apply Nat.eqb_eq in E; done|]. auto.
Qed.
Lemma offsets_free_spec strict f own r c : (strict = true -> f = FMalloc) ->
  hoare (cells_off f r c ++ own) (offsets_free strict r c) (fun _ o => o ≡ₚ own).
Proof.
  intros Hs. unfold offsets_free, cells_off. assert (strict = true -> FMalloc = f) by (intros; symmetry; auto).
  destruct (c =? r).
  - eapply hoare_weaken; [by apply hoare_dealloc|]. by intros ? ? ->.
  - cbn [app]. fr. eapply hoare_weaken; [by apply hoare_dealloc|]. by intros ? ? ->.
Qed.
Lemma offsets_free_bad f own r c : f <> FMalloc -> fails (cells_off f r c ++ own) (offsets_free true r c) BadFree.
Proof.
  intros Hs. unfold offsets_free, cells_off. destruct (c =? r); cbn [app]; [|apply fails_bind]; apply fails_dealloc; by intros ?; subst.
Qed.

Ltac frl := eapply hoare_weaken; [by apply hoare_dealloc|]; by intros ? ? ->.
Ltac after Ho := eapply hoare_perm; [exact Ho|].

(** ** C68: the formats that release everything properly (also on a strict platform) *)
Theorem C68_plain (strict : bool) :
  clean csr_new (csr_release strict) /\ clean csr2_new (csr2_release strict) /\ clean cswr_new (cswr_release strict) /\
  clean one_new (one_release strict) /\ clean coo_new (coo_release strict) /\ clean crcsr_new (crcsr_release strict) /\
  clean csbr3_new (csbr3_release strict).
Proof.
  split; [|split; [|split; [|split; [|split; [|split]]]]].
  - eapply (clean_hoare _ _ (fun p o => o ≡ₚ cells_block (BmCsr p))); [do 3 al; apply hoare_ret; cbn; solve_Permutation|].
    intros p o Ho. after Ho. eapply hoare_weaken; [rewrite <- (app_nil_r (cells_block _)); apply (block_release_spec strict _ (BmCsr p))|].
    intros [] o' Ho'. by apply Permutation_nil.
  - eapply (clean_hoare _ _ (fun p o => o ≡ₚ [A_ p.2; A_ p.1])); [do 2 al; apply hoare_ret; cbn; solve_Permutation|].
    intros [d r] o Ho. after Ho. cbn. fr. frl.
  - eapply (clean_hoare _ _ (fun '(v, r, c, w) o => o ≡ₚ [A_ v; A_ r; A_ c; A_ w])); [do 4 al; apply hoare_ret; cbn; solve_Permutation|].
    intros [[[v r] c] w] o Ho. after Ho. cbn. do 3 fr. frl.
  - eapply (clean_hoare _ _ (fun p o => o = [A_ p])); [eapply hoare_weaken; [apply hoare_alloc|]; by intros p o [-> _]|].
    intros p o ->. frl.
  - eapply (clean_hoare _ _ (fun p o => o ≡ₚ cells_block (BmCoo p))); [do 3 al; apply hoare_ret; cbn; solve_Permutation|].
    intros p o Ho. after Ho. eapply hoare_weaken; [rewrite <- (app_nil_r (cells_block _)); apply (block_release_spec strict _ (BmCoo p))|].
    intros [] o' Ho'. by apply Permutation_nil.
  - eapply (clean_hoare _ _ (fun '(v, r, c, w) o => o ≡ₚ [A_ v; A_ r; A_ c; A_ w])); [do 4 al; apply hoare_ret; cbn; solve_Permutation|].
    intros [[[v r] c] w] o Ho. after Ho. cbn. do 3 fr. frl.
  - eapply (clean_hoare _ _ (fun l o => o ≡ₚ cells_of FNewArray l ++ [])).
    + eapply hoare_weaken; [apply hoare_times|]. by intros l o [_ Ho].
    + intros l o Ho. after Ho. eapply hoare_weaken; [by apply hoare_free_each|]. intros [] o' Ho'. by apply Permutation_nil.
Qed.

(** a Coo (three arrays) releases its arrays in its destructor too: after release() that is a
    double free, and a Coo that was never allocated deletes uninitialised pointers *)
Theorem C68_coo_released_twice_refuted (strict : bool) :
  bad_release coo_new (fun A => _ ← coo_release strict A; coo_destroy strict (Some A)) /\
  clean coo_new (fun A => coo_destroy strict (Some A)) /\ forall m, coo_destroy strict None m = Undef Uninit.
Proof.
  split; [|split; [|done]].
  - intros m Hv. destruct (proj1 (proj2 (proj2 (proj2 (proj2 (C68_plain strict))))) m Hv) as ([[i j] v] & m1 & m2 & H1 & H2 & H3).
    exists (i, j, v), m1. split; [done|]. unfold mbind, led_bind. rewrite H2. cbn [mbind outcome_bind coo_destroy coo_release].
    unfold mbind at 1, led_bind. rewrite dealloc_dead; [done|].
    rewrite H3. unfold coo_new, mbind, led_bind, alloc, mret, led_ret in H1. cbn in H1.
    assert (l_next m = i) as <- by congruence. destruct (l_live m !! l_next m) eqn:E; [|done]. specialize (Hv _ _ E). lia.
  - apply (C68_plain strict).
Qed.

(** Csbr2 with offsets from malloc (as read_bin_array gives them), one array for both dimensions
    or two; with blocks of constant size they come from new[] and are given to free() *)
Theorem C68_csbr2 (strict same : bool) (n : nat) : clean (with_offsets FMalloc same (fun r c => csbr2_new r c n)) (csbr2_release strict).
Proof.
  eapply (clean_hoare _ _ (fun A o => o ≡ₚ cells_of FMalloc (s2m_rowptrs A) ++ cells_off FMalloc (s2m_roff A) (s2m_coff A) ++
    [M (s2m_ptr A); M (s2m_rowptr A); M (s2m_colind A); M (s2m_val A)])).
  - apply with_offsets_spec. intros r c _. unfold csbr2_new. do 4 al. eapply hoare_bind; [apply hoare_times|]. intros l o (_ & Ho).
    apply hoare_ret. rewrite Ho. cbn. unfold cells_of. solve_Permutation.
  - intros A o Ho. after Ho. unfold csbr2_release. eapply hoare_bind; [by apply hoare_free_each|]. intros [] o1 Ho1. after Ho1.
    eapply hoare_bind; [by apply offsets_free_spec|]. intros [] o2 Ho2. after Ho2. do 3 fr. frl.
Qed.
Theorem C68_csbr2_constant_size_refuted (n : nat) :
  bad_release (constant_size (fun r c => csbr2_new r c n)) (csbr2_release true) /\
  clean (constant_size (fun r c => csbr2_new r c n)) (csbr2_release false).
Proof.
  assert (Hmake : hoare [] (constant_size (fun r c => csbr2_new r c n)) (fun A o => o ≡ₚ cells_of FMalloc (s2m_rowptrs A) ++ cells_off FNewArray (s2m_roff A) (s2m_coff A) ++
    [M (s2m_ptr A); M (s2m_rowptr A); M (s2m_colind A); M (s2m_val A)])).
  { apply with_offsets_spec. intros r c _. unfold csbr2_new. do 4 al. eapply hoare_bind; [apply hoare_times|]. intros l o (_ & Ho).
    apply hoare_ret. rewrite Ho. cbn. unfold cells_of. solve_Permutation. }
  split.
  - eapply bad_hoare; [exact Hmake|]. intros A o Ho. eapply fails_perm; [exact Ho|]. unfold csbr2_release.
    eapply fails_bind_r; [by apply hoare_free_each|]. intros [] o1 Ho1. eapply fails_perm; [exact Ho1|]. by apply fails_bind, offsets_free_bad.
  - eapply clean_hoare; [exact Hmake|]. intros A o Ho. after Ho. unfold csbr2_release. eapply hoare_bind; [by apply hoare_free_each|].
    intros [] o1 Ho1. after Ho1. eapply hoare_bind; [by apply offsets_free_spec|]. intros [] o2 Ho2. after Ho2. do 3 fr. frl.
Qed.

(** Csbr: the row pointers of the blocks come from calloc() and are given to delete[]; and if
    that is forgiven the partition (an array and a vector per block row) is never released.  A
    Csbr read from a file has no partition. *)
Theorem C68_csbr_refuted (same : bool) (n blockrows : nat) : 0 < n ->
  bad_release (with_offsets FMalloc same (fun r c => csbr_new r c blockrows n)) (csbr_release true) /\
  leaks (1 + blockrows) (with_offsets FMalloc same (fun r c => csbr_new r c blockrows n)) (csbr_release false) /\
  bad_release (with_offsets FMalloc same (fun r c => csbr_read r c n)) (csbr_release true) /\
  clean (with_offsets FMalloc same (fun r c => csbr_read r c n)) (csbr_release false).
Proof.
  intros Hn.
  pose (rest := fun A => cells_off FMalloc (sm_roff A) (sm_coff A) ++ [M (sm_ind A); M (sm_blocks A); M (sm_ptr A); M (sm_colind A); M (sm_val A)]).
  assert (Hmake : hoare [] (with_offsets FMalloc same (fun r c => csbr_new r c blockrows n)) (fun A o => length (sm_rowptrs A) = n /\
    exists P, length P = blockrows + 1 /\ o ≡ₚ cells_of FMalloc (sm_rowptrs A) ++ rest A ++ P)).
  { apply with_offsets_spec. intros r c _. unfold csbr_new. do 5 al. eapply hoare_bind; [apply hoare_times|]. intros l o (Hl & Ho).
    unfold partition_new at 1. eapply (hoare_bind _ _ _ _ (fun P o' => length P.2 = blockrows /\ o' ≡ₚ cells_part P ++ o)).
    { al. eapply hoare_bind; [apply hoare_times|]. intros l' o' (Hl' & Ho'). apply hoare_ret. split; [done|].
      unfold cells_part, cells_of. cbn. rewrite Ho'. solve_Permutation. }
    intros P o' (HP & Ho'). apply hoare_ret. cbn. split; [done|]. exists (cells_part P). split.
    - unfold cells_part, cells_of. rewrite app_length, fmap_length. cbn. lia.
    - unfold rest. cbn. rewrite Ho', Ho. unfold cells_of. solve_Permutation. }
  assert (Hread : hoare [] (with_offsets FMalloc same (fun r c => csbr_read r c n)) (fun A o => length (sm_rowptrs A) = n /\
    o ≡ₚ cells_of FMalloc (sm_rowptrs A) ++ rest A ++ [])).
  { apply with_offsets_spec. intros r c _. unfold csbr_read. do 5 al. eapply hoare_bind; [apply hoare_times|]. intros l o (Hl & Ho).
    apply hoare_ret. cbn. split; [done|]. unfold rest. cbn. rewrite Ho. unfold cells_of. solve_Permutation. }
  assert (Hbad : forall A P, length (sm_rowptrs A) = n -> fails (cells_of FMalloc (sm_rowptrs A) ++ P) (csbr_release true A) BadFree).
  { intros A P Hl. unfold csbr_release. apply fails_bind. destruct (sm_rowptrs A) as [|q l]; [cbn in Hl; lia|]. cbn. apply fails_bind.
    by apply fails_dealloc. }
  assert (Hgood : forall A P, hoare (cells_of FMalloc (sm_rowptrs A) ++ rest A ++ P) (csbr_release false A) (fun _ o => o ≡ₚ P)).
  { intros A P. unfold csbr_release. eapply hoare_bind; [by apply hoare_free_each|]. intros [] o1 Ho1. after Ho1. unfold rest. rewrite <- app_assoc.
    eapply hoare_bind; [by apply offsets_free_spec|]. intros [] o2 Ho2. after Ho2. cbn [app]. do 4 fr. frl. }
  split; [|split; [|split]].
  - eapply bad_hoare; [exact Hmake|]. intros A o (Hl & P & _ & Ho). eapply fails_perm; [exact Ho|]. by apply Hbad.
  - eapply leaks_hoare; [exact Hmake|]. intros A o (_ & P & HP & Ho). after Ho. eapply hoare_weaken; [apply Hgood|].
    intros [] o' ->. lia.
  - eapply bad_hoare; [exact Hread|]. intros A o (Hl & Ho). eapply fails_perm; [exact Ho|]. by apply Hbad.
  - eapply clean_hoare; [exact Hread|]. intros A o (_ & Ho). after Ho. eapply hoare_weaken; [apply Hgood|].
    intros [] o' Ho'. by apply Permutation_nil.
Qed.

(** Bcsr read from a file: the row pointers of the blocks are never released *)
Theorem C68_bcsr_refuted (strict same : bool) (n : nat) : leaks n (with_offsets FMalloc same (fun r c => bcsr_read r c n)) (bcsr_release strict).
Proof.
  eapply (leaks_hoare _ _ _ (fun A o => exists l, length l = n /\ bm_rowptrs A = (fun p => (0, p)) <$> l /\
    o ≡ₚ cells_off FMalloc (bm_roff A) (bm_coff A) ++ [M (bm_blocks A); M (bm_colind A); M (bm_val A)] ++ cells_of FMalloc l)).
  - apply with_offsets_spec. intros r c _. unfold bcsr_read. do 3 al. eapply hoare_bind; [apply hoare_times|]. intros l o (Hl & Ho).
    apply hoare_ret. exists l. split; [done|]. split; [done|]. rewrite Ho. cbn. unfold cells_of. solve_Permutation.
  - intros A o (l & Hl & Hr & Ho). unfold bcsr_release. rewrite Hr.
    eapply (hoare_bind _ _ _ _ (fun _ o' => o' = o)).
    { clear. induction l as [|a l IH]; cbn; [by apply hoare_ret|]. eapply (hoare_bind _ _ _ _ (fun _ o' => o' = o)); [by apply hoare_ret|]. by intros [] ? ->. }
    intros [] ? ->. after Ho. eapply hoare_bind; [by apply offsets_free_spec|]. intros [] o2 Ho2. after Ho2. cbn [app]. do 2 fr.
    eapply hoare_weaken; [by apply hoare_dealloc|]. intros [] ? ->. unfold cells_of. by rewrite fmap_length.
Qed.

(** Cgbr: everything it allocates is released, balanced or not, whatever the mixture of blocks;
    but the offsets made for blocks of constant size are never released *)
Lemma cgbr_made shapes blockrows balanced own :
  hoare own (cgbr_new shapes blockrows balanced) (fun A o => gm_balanced A = balanced /\ exists P,
    match gm_part A with Some q => P = cells_part q /\ balanced = false | None => P = [] /\ balanced = true end /\
    o ≡ₚ P ++ flat_map cells_block (gm_each A) ++ [A_ (gm_blocks A); A_ (gm_ptr A); A_ (gm_ind A)] ++ own).
Proof.
  unfold cgbr_new. do 3 al. eapply hoare_bind; [apply (hoare_map _ cells_block has_shape); intros; apply block_new_spec|].
  intros l o (_ & Ho). destruct balanced.
  - eapply (hoare_bind _ _ _ _ (fun q o' => q = None /\ o' = o)); [by apply hoare_ret|]. intros q o' [-> ->]. apply hoare_ret. cbn.
    split; [done|]. exists []. split; [done|]. rewrite Ho. cbn. solve_Permutation.
  - eapply (hoare_bind _ _ _ _ (fun q o' => exists P, q = Some P /\ o' ≡ₚ cells_part P ++ o)).
    { eapply hoare_bind; [apply part_new|]. intros P o' Ho'. apply hoare_ret. eauto. }
    intros q o' (P & -> & Ho'). apply hoare_ret. cbn. split; [done|]. exists (cells_part P). split; [done|]. rewrite Ho', Ho. solve_Permutation.
Qed.
Lemma cgbr_released strict A own P : match gm_part A with Some q => P = cells_part q /\ gm_balanced A = false | None => P = [] /\ gm_balanced A = true end ->
  hoare (P ++ flat_map cells_block (gm_each A) ++ [A_ (gm_blocks A); A_ (gm_ptr A); A_ (gm_ind A)] ++ own) (cgbr_release strict A) (fun _ o => o = own).
Proof.
  intros HP. unfold cgbr_release.
  eapply (hoare_bind _ _ _ _ (fun _ o => o ≡ₚ flat_map cells_block (gm_each A) ++ [A_ (gm_blocks A); A_ (gm_ptr A); A_ (gm_ind A)] ++ own)).
  - destruct (gm_part A) as [q|]; destruct HP as [-> ->]; [apply part_delete|by apply hoare_ret].
  - intros [] o Ho. after Ho. eapply hoare_bind; [apply hoare_each; intros; apply block_release_spec|]. intros [] o1 Ho1. after Ho1. cbn [app]. do 2 fr. frl.
Qed.
Theorem C68_cgbr (strict balanced : bool) (shapes : list shape) (blockrows : nat) : clean (cgbr_new shapes blockrows balanced) (cgbr_release strict).
Proof.
  eapply clean_hoare; [apply cgbr_made|]. intros A o (Hb & P & HP & Ho). after Ho. apply cgbr_released. by rewrite Hb.
Qed.
Theorem C68_cgbr_constant_size_refuted (strict balanced : bool) (shapes : list shape) (blockrows : nat) :
  leaks 2 (constant_size (fun _ _ => cgbr_new shapes blockrows balanced)) (cgbr_release strict).
Proof.
  eapply (leaks_hoare _ _ _ (fun A o => exists P own, length own = 2 /\ match gm_part A with Some q => P = cells_part q /\ gm_balanced A = false | None => P = [] /\ gm_balanced A = true end /\
    o ≡ₚ P ++ flat_map cells_block (gm_each A) ++ [A_ (gm_blocks A); A_ (gm_ptr A); A_ (gm_ind A)] ++ own)).
  - apply with_offsets_spec. intros r c [[_ ?]|[Hne _]]; [done|]. eapply hoare_weaken; [apply cgbr_made|]. intros A o (Hb & P & HP & Ho).
    eexists P, _. split; [|split; [by rewrite Hb|exact Ho]]. unfold cells_off. destruct (c =? r) eqn:E; [apply Nat.eqb_eq in E; done|done].
  - intros A o (P & own & Hl & HP & Ho). after Ho. eapply hoare_weaken; [by apply cgbr_released|]. by intros [] ? ->.
Qed.
(** a Cgbr read from a file: the balance flag is never set, a partition is always made; if the
    flag happens to hold true the partition is never released *)
Theorem C68_cgbr_read_refuted (strict : bool) (shapes : list shape) (blockrows : nat) :
  clean (cgbr_read strict shapes blockrows false) (cgbr_release strict) /\
  leaks (1 + blockrows) (cgbr_read strict shapes blockrows true) (cgbr_release strict).
Proof.
  assert (Hread : forall g, hoare [] (cgbr_read strict shapes blockrows g) (fun A o => gm_balanced A = g /\ exists q, gm_part A = Some q /\ length q.2 = blockrows /\
    o ≡ₚ cells_part q ++ flat_map cells_block (gm_each A) ++ [A_ (gm_blocks A); A_ (gm_ptr A); A_ (gm_ind A)])).
  { intros g. unfold cgbr_read. do 3 al.
    eapply hoare_bind; [apply (hoare_map _ cells_block has_shape)|].
    { intros s o. al. eapply hoare_bind; [apply block_new_spec|]. intros B o1 (Hs & Ho1).
      eapply (hoare_bind _ _ _ _ (fun _ o' => o' ≡ₚ cells_block B ++ o)).
      - apply (hoare_perm _ (A_ p2 :: cells_block B ++ o)); [rewrite Ho1; solve_Permutation|]. frl.
      - intros [] o2 Ho2. by apply hoare_ret. }
    intros l o (_ & Ho). unfold partition_new. eapply (hoare_bind _ _ _ _ (fun P o' => length P.2 = blockrows /\ o' ≡ₚ cells_part P ++ o)).
    { al. eapply hoare_bind; [apply hoare_times|]. intros l' o' (Hl' & Ho'). apply hoare_ret. split; [done|].
      unfold cells_part, cells_of. cbn. rewrite Ho'. solve_Permutation. }
    intros P o' (HP & Ho'). apply hoare_ret. cbn. split; [done|]. exists P. split; [done|]. split; [done|]. rewrite Ho', Ho. cbn. solve_Permutation. }
  split.
  - eapply clean_hoare; [apply Hread|]. intros A o (Hb & q & Hq & _ & Ho). after Ho.
    pose proof (cgbr_released strict A [] (cells_part q)) as HR. rewrite Hq, app_nil_r in HR. by apply HR.
  - eapply leaks_hoare; [apply Hread|]. intros A o (Hb & q & Hq & Hlen & Ho).
    apply (hoare_perm _ (flat_map cells_block (gm_each A) ++ [A_ (gm_blocks A); A_ (gm_ptr A); A_ (gm_ind A)] ++ cells_part q)); [rewrite Ho; solve_Permutation|].
    unfold cgbr_release. rewrite Hb. eapply (hoare_bind _ _ _ _ (fun _ o' => o' = _)); [by apply hoare_ret|]. intros [] ? ->.
    eapply hoare_bind; [apply hoare_each; intros; apply block_release_spec|]. intros [] o1 Ho1. after Ho1. cbn [app]. do 2 fr.
    eapply hoare_weaken; [by apply hoare_dealloc|]. intros [] ? ->. unfold cells_part, cells_of. rewrite app_length, fmap_length. cbn. lia.
Qed.

(** Cgbr2: clean exactly when no block is dense: the array of every dense block is lost *)
Theorem C68_cgbr2_refuted (strict : bool) (shapes : list shape) (blockrows : nat) :
  leaks (dense_count shapes) (cgbr2_new shapes blockrows) (cgbr2_release strict).
Proof.
  eapply (leaks_hoare _ _ _ (fun A o => Forall2 has_shape shapes (g2m_each A).*2 /\
    o ≡ₚ cells_part (g2m_part A) ++ flat_map cells_object (g2m_each A) ++ [A_ (g2m_blocks A); A_ (g2m_ptr A); A_ (g2m_ind A)] ++ flat_map lost_object (g2m_each A))).
  - unfold cgbr2_new. do 3 al. eapply hoare_bind; [apply (hoare_map _ (fun O => cells_object O ++ lost_object O) (fun s O => has_shape s O.2)); intros; apply object_new_spec|].
    intros l o (Hs & Ho). eapply hoare_bind; [apply part_new|]. intros P o' Ho'. apply hoare_ret. cbn. split.
    + clear -Hs. induction Hs; cbn; by constructor.
    + rewrite Ho', Ho.
      assert (flat_map (fun O => cells_object O ++ lost_object O) l ≡ₚ flat_map cells_object l ++ flat_map lost_object l) as ->.
      { clear. induction l as [|a l IH]; cbn; [done|]. rewrite IH. solve_Permutation. }
      solve_Permutation.
  - intros A o (Hs & Ho). after Ho. unfold cgbr2_release. eapply hoare_bind; [apply part_delete|]. intros [] o1 Ho1. after Ho1.
    eapply hoare_bind; [apply hoare_each; intros; apply object_delete_spec|]. intros [] o2 Ho2. after Ho2. cbn [app]. do 2 fr.
    eapply hoare_weaken; [by apply hoare_dealloc|]. intros [] ? ->.
    clear -Hs. revert shapes Hs. generalize (g2m_each A) as l. induction l as [|[p B] l IH]; intros shapes Hs; cbn in *.
    + by apply Forall2_nil_inv_r in Hs as ->.
    + apply Forall2_cons_inv_r in Hs as (s & ss & Hs1 & Hs2 & ->). rewrite app_length, (IH ss Hs2). unfold dense_count.
      destruct s, B; cbn in Hs1; try done.
Qed.

(** ** Examples: a heap in which a piece is live *)
Example C68_ex : let m := Ledger 5 {[ 3 := FNew ]} in valid m /\
  (exists r m1, with_offsets FMalloc true (fun r c => csbr_new r c 2 3) m = Ok (r, m1) /\ size (l_live m1) = 1 + 1 + 5 + 3 + 3) /\
  dense_count [SCoo; SDense; SCsr; SDense] = 2.
Proof.
  split; [|split].
  - intros p f Hp. cbn in *. apply lookup_singleton_Some in Hp as [<- _]. lia.
  - eexists _, _. split; [vm_compute; reflexivity|]. by vm_compute.
  - done.
Qed.
