(** DriversProof.v: lemmas about Drivers.v.  (No model definitions in this file.) *)
From Verif Require Export Drivers ParSeq ToolsProof Csbr3Chunk.
From Coq Require Import QArith Lqa.
Local Open Scope nat_scope.

(** ** sorting timings *)
Lemma zinsert_perm (v : Z) (l : list Z) : zinsert v l ≡ₚ v :: l.
Proof.
  induction l as [|a l IH]; cbn [zinsert]; [done|]. destruct (v <=? a)%Z; [done|]. rewrite IH. by rewrite Permutation_swap.
Qed.
Lemma zsort_perm (l : list Z) : zsort l ≡ₚ l.
Proof. induction l as [|a l IH]; [done|]. cbn [zsort foldr]. change (foldr zinsert [] l) with (zsort l). by rewrite zinsert_perm, IH. Qed.
Lemma zinsert_sorted (v : Z) (l : list Z) : StronglySorted Z.le l -> StronglySorted Z.le (zinsert v l).
Proof.
  induction 1 as [|a l Hs IH Ha]; cbn [zinsert]; [by repeat constructor|].
  destruct (Z.leb_spec v a) as [Hv|Hv].
  - constructor; [by constructor|]. constructor; [done|]. eapply Forall_impl; [exact Ha|]. intros z Hz. cbv beta in Hz. lia.
  - constructor; [done|]. rewrite zinsert_perm. constructor; [lia|done].
Qed.
Lemma zsort_sorted (l : list Z) : StronglySorted Z.le (zsort l).
Proof. induction l as [|a l IH]; [constructor|]. by apply zinsert_sorted. Qed.
Lemma sorted_nth (l : list Z) i j : StronglySorted Z.le l -> i <= j -> j < length l -> (nth i l 0 <= nth j l 0)%Z.
Proof.
  intros Hs. revert i j. induction Hs as [|a l Hs IH Ha]; intros i j Hij Hj; [simpl in Hj; lia|].
  destruct i as [|i], j as [|j]; simpl; try lia.
  - rewrite Forall_forall in Ha. apply Ha. apply elem_of_list_In, nth_In. simpl in Hj. lia.
  - apply IH; [lia|]. simpl in Hj. lia.
Qed.
Lemma zsum_acc (l : list Z) (a : Z) : fold_left Z.add l a = (a + zsum l)%Z.
Proof.
  unfold zsum. revert a. induction l as [|b l IH]; intros a; cbn [fold_left]; [lia|]. rewrite IH, (IH (0 + b)%Z). lia.
Qed.
Lemma zsum_cons (a : Z) (l : list Z) : zsum (a :: l) = (a + zsum l)%Z.
Proof. unfold zsum at 1. cbn [fold_left]. rewrite zsum_acc. lia. Qed.
Lemma zsum_perm (l l' : list Z) : l ≡ₚ l' -> zsum l = zsum l'.
Proof. induction 1 as [|a l l' _ IH|a b l|l l' l'' _ IH1 _ IH2]; rewrite ?zsum_cons in *; lia. Qed.
Lemma zsum_bounds (l : list Z) (a b : Z) : Forall (fun t => a <= t <= b)%Z l -> (a * Z.of_nat (length l) <= zsum l <= b * Z.of_nat (length l))%Z.
Proof. induction 1 as [|t l Ht _ IH]; [unfold zsum; simpl; lia|]. rewrite zsum_cons. cbn [length]. lia. Qed.
(** the elements before position i of a sorted list are those that can be smaller *)
Lemma count_below (l : list Z) (i : nat) : StronglySorted Z.le l -> i < length l ->
  length (bfilter (fun t => (t <? nth i l 0)%Z) l) <= i /\ length (bfilter (fun t => (nth i l 0 <? t)%Z) l) <= length l - 1 - i.
Proof.
  intros Hs. revert i. induction Hs as [|a l Hs IH Ha]; intros i Hi; [simpl in Hi; lia|].
  assert (Hall : forall (f : Z -> bool) (m : list Z), length (bfilter f m) <= length m).
  { clear. intros f m. induction m as [|c m IHm]; cbn [bfilter length]; [lia|]. destruct (f c); cbn [length]; lia. }
  destruct i as [|i]; cbn [nth bfilter length] in *.
  - rewrite Z.ltb_irrefl. split.
    + assert (E : bfilter (fun t => (t <? a)%Z) l = []); [|rewrite E; cbn [length]; lia]. clear -Ha. induction Ha as [|c m Hc _ IHm]; cbn [bfilter]; [done|]. rewrite (proj2 (Z.ltb_ge c a)) by lia. done.
    + specialize (Hall (fun t => (a <? t)%Z) l). lia.
  - destruct (IH i) as [I1 I2]; [lia|]. split.
    + destruct (a <? nth i l 0)%Z; cbn [length]; lia.
    + assert (Hle : (a <= nth i l 0)%Z). { rewrite Forall_forall in Ha. apply Ha. apply elem_of_list_In, nth_In. lia. }
      rewrite (proj2 (Z.ltb_ge _ a)) by lia. lia.
Qed.
Lemma bfilter_perm_length {A} (f : A -> bool) (l l' : list A) : l ≡ₚ l' -> length (bfilter f l) = length (bfilter f l').
Proof.
  induction 1 as [|a l l' _ IH|a b l|l l' l'' _ IH1 _ IH2]; cbn [bfilter]; [done| | |by rewrite IH1].
  - destruct (f a); cbn [length]; by rewrite IH.
  - destruct (f a), (f b); done.
Qed.
Lemma lget_nth (l : list Z) i : i < length l -> lget l i = Ok (nth i l 0%Z).
Proof. intros Hi. unfold lget. apply lookup_lt_is_Some in Hi as [v Hv]. rewrite Hv. by rewrite (nth_lookup_Some l i _ _ Hv). Qed.

(** ** programs in sequence that do not complete *)
Section never.
  Context {V : Type}.
  Lemma rtc_pbind_inv {A B} (p : prog V A) (f : A -> prog V B) (h : heap V) c hf :
    rtc (step B) (pbind p f, h) (Ret c, hf) -> exists a h1, rtc (step A) (p, h) (Ret a, h1) /\ rtc (step B) (f a, h1) (Ret c, hf).
  Proof.
    intros Hr. remember (pbind p f, h) as c0 eqn:E0. remember (Ret c, hf) as c1 eqn:E1. revert p h E0.
    induction Hr as [c0|c0 c2 c3 Hs Hr IH]; intros p h E0; subst.
    - destruct p; try discriminate. cbn [pbind] in E0. injection E0 as E0 ->. exists a, h. rewrite <- E0. split; apply rtc_refl.
    - destruct (is_ret_dec p) as [[x ->]|Hn].
      + exists x, h. split; [apply rtc_refl|]. cbn [pbind] in Hs. by eapply rtc_l.
      + destruct (pbind_step p f h c2 Hn Hs) as (p' & h' & -> & Hs').
        destruct (IH eq_refl p' h' eq_refl) as (a & h1 & H1 & H2). exists a, h1. split; [|done]. by eapply rtc_l.
  Qed.
  Lemma never_completes_bind {A B} (p : prog V A) (f : A -> prog V B) (h : heap V) a h1 :
    all_schedules p h a h1 -> never_completes (f a) h1 -> never_completes (p ≫= f) h.
  Proof.
    intros Hp Hf c hf Hr. destruct (rtc_pbind_inv p f h c hf Hr) as (a' & h' & H1 & H2).
    assert (Hst : forall c, ~ step A (Ret a', h') c) by (intros c' Hs; inversion Hs).
    destruct (all_schedules_unique p h a h1 _ _ Hp H1 Hst) as [E ->]. injection E as ->. by apply (Hf c hf).
  Qed.
  Lemma never_completes_fail {A : Type} (e : failure) (h : heap V) : never_completes (Fail e : prog V A) h.
  Proof. intros a h' Hr. inversion Hr as [|? ? ? Hs]; subst. inversion Hs. Qed.
End never.

(** ** the harness *)
Section harness.
  Context {T : Type} `{Scalar T}.
  Implicit Types (x y : list T) (b : buf).

  Lemma heap_of_write b y i v : i < length y -> upd (Some (Some v)) (b, i) (heap_of b y) = heap_of b (<[i := v]> y).
  Proof.
    intros Hi. apply heap_eq. intros b' j. rewrite upd_lookup, !heap_of_lookup. cbn [fst snd]. rewrite insert_length.
    destruct (decide ((b', j) = (b, i))) as [E|E].
    - injection E as -> ->. rewrite decide_True by done. by rewrite list_lookup_insert.
    - destruct (decide (b' = b /\ j < length y)) as [[-> Hj]|]; [|done]. rewrite list_lookup_insert_ne; [done|]. intros ->. by apply E.
  Qed.
  Lemma heap_of_release b y : set_cells b (length y) None (heap_of b y) = ∅.
  Proof.
    apply heap_eq. intros b' j. rewrite set_cells_lookup, heap_of_lookup, lookup_empty. cbn [fst snd].
    destruct (decide (b' = b /\ j < length y)); done.
  Qed.
  Lemma heap_of_live b y : all_live b (length y) (heap_of b y).
  Proof. intros i Hi. rewrite heap_of_lookup. rewrite decide_True by done. by eexists. Qed.

  (** cells of b written below i with zeros and not yet from i on *)
  Definition zeroing b (n i : nat) : heap T := set_cells b i (Some (Some s0)) (set_cells b n (Some None) ∅).
  Lemma vector_zero_spec b n : all_schedules (vector_zero b n) ∅ tt (heap_of b (replicate n s0)).
  Proof.
    unfold vector_zero. eapply all_schedules_bind; [apply all_schedules_alloc; intros i Hi; apply lookup_empty|].
    replace (heap_of b (replicate n s0)) with (zeroing b n (0 + n)).
    - change (set_cells b n (Some None) (∅ : heap T)) with (zeroing b n 0). apply (all_schedules_pfor n 0 _ (zeroing b n)).
      intros i Hi. unfold zeroing at 2. cbn [set_cells]. apply all_schedules_write. unfold zeroing.
      rewrite set_cells_lookup. cbn [fst snd]. rewrite decide_False by lia. rewrite set_cells_lookup. cbn [fst snd]. rewrite decide_True by (split; [done|lia]). by eexists.
    - apply heap_eq. intros b' j. unfold zeroing. rewrite !set_cells_lookup, heap_of_lookup, lookup_empty. cbn [fst snd]. rewrite replicate_length.
      destruct (decide (b' = b /\ j < 0 + n)) as [[-> Hj]|Hj].
      + rewrite decide_True by (split; [done|lia]). rewrite lookup_replicate_2 by lia. done.
      + rewrite !decide_False by (intros [? ?]; apply Hj; split; [done|lia]). done.
  Qed.

  (** M is a matrix of B's dimensions whose product is G *)
  Definition computes (M : bench T) (B : coo T) (G : list T -> list T -> list T) : Prop :=
    bm_rows M = c_rows B /\ bm_cols M = c_cols B /\ bm_nonzeros M = Ok (c_nnz B) /\
    forall x y b, length x = c_cols B -> length y = c_rows B -> length (G x y) = c_rows B /\ all_schedules (bm_spmv M x b) (heap_of b y) tt (heap_of b (G x y)).

  Lemma computes_length (M : bench T) B G x y : computes M B G -> length x = c_cols B -> length y = c_rows B -> length (G x y) = c_rows B.
  Proof. intros (_ & _ & _ & Hc) Hx Hy. by apply (Hc x y []). Qed.
  Lemma iter_length (M : bench T) B G x y k : computes M B G -> length x = c_cols B -> length y = c_rows B -> length (Nat.iter k (G x) y) = c_rows B.
  Proof. intros HM Hx Hy. induction k as [|k IH]; [done|]. cbn [Nat.iter]. by eapply computes_length. Qed.
  Lemma passes_spec (M : bench T) B G iterations x y b : computes M B G -> length x = c_cols B -> length y = c_rows B ->
    all_schedules (passes M iterations x b) (heap_of b y) tt (heap_of b (Nat.iter (S iterations) (G x) y)).
  Proof.
    intros HM Hx Hy. pose proof HM as (_ & _ & _ & Hc). unfold passes.
    eapply all_schedules_bind; [by apply Hc|].
    apply (all_schedules_pfor iterations 0 _ (fun i => heap_of b (Nat.iter (S i) (G x) y))).
    intros i Hi. cbn [Nat.iter]. apply Hc; [done|]. by apply (iter_length M B G x y (S i)).
  Qed.
  (** M is a matrix of B's dimensions that can multiply, with one result on every schedule *)
  Definition usable (M : bench T) (B : coo T) : Prop :=
    bm_rows M = c_rows B /\ bm_cols M = c_cols B /\ bm_nonzeros M = Ok (c_nnz B) /\
    forall x y b, length x = c_cols B -> length y = c_rows B -> exists y', length y' = c_rows B /\ all_schedules (bm_spmv M x b) (heap_of b y) tt (heap_of b y').
  Lemma computes_usable (M : bench T) B G : computes M B G -> usable M B.
  Proof. intros (H1 & H2 & H3 & H4). do 3 (split; [done|]). intros x y b Hx Hy. exists (G x y). by apply H4. Qed.
  Lemma usable_loop (M : bench T) B x b : usable M B -> length x = c_cols B -> forall n lo y, length y = c_rows B ->
    exists y', length y' = c_rows B /\ all_schedules (pfor n lo (fun _ => bm_spmv M x b)) (heap_of b y) tt (heap_of b y').
  Proof.
    intros (_ & _ & _ & HM) Hx. induction n as [|n IH]; intros lo y Hy; [exists y; split; [done|]; apply all_schedules_ret|].
    destruct (HM x y b Hx Hy) as (y1 & Hy1 & H1). destruct (IH (S lo) y1 Hy1) as (y2 & Hy2 & H2).
    exists y2. split; [done|]. cbn [pfor]. by eapply all_schedules_bind.
  Qed.
  Lemma usable_passes (M : bench T) B iterations x y b : usable M B -> length x = c_cols B -> length y = c_rows B ->
    exists y', length y' = c_rows B /\ all_schedules (passes M iterations x b) (heap_of b y) tt (heap_of b y').
  Proof.
    intros HM Hx Hy. pose proof HM as (_ & _ & _ & Hc). destruct (Hc x y b Hx Hy) as (y1 & Hy1 & H1).
    destruct (usable_loop M B x b HM Hx iterations 0 y1 Hy1) as (y2 & Hy2 & H2). exists y2. split; [done|]. unfold passes. by eapply all_schedules_bind.
  Qed.
  Lemma benchmark_spec (M : bench T) B iterations rand laps b r : usable M B ->
    print_timing (c_nnz B) iterations (laps <$> seq 0 iterations) = Ok r ->
    all_schedules (benchmark M iterations rand laps b) ∅ r ∅.
  Proof.
    intros HM Hr. pose proof HM as (Hrows & Hcols & Hn & _). unfold benchmark. rewrite Hrows, Hcols, Hn.
    set (x := vector_random rand (c_cols B)). assert (Hx : length x = c_cols B) by (unfold x, vector_random; by rewrite fmap_length, seq_length).
    destruct (usable_passes M B iterations x (replicate (c_rows B) s0) b HM Hx (replicate_length _ _)) as (y' & Hlen & Hp).
    eapply all_schedules_bind; [apply vector_zero_spec|].
    eapply all_schedules_bind; [exact Hp|].
    eapply all_schedules_bind; [apply all_schedules_lift; cbn [mbind outcome_bind]; exact Hr|].
    eapply all_schedules_bind; [|apply all_schedules_ret].
    rewrite <- Hlen at 1. rewrite <- (heap_of_release b y'). apply all_schedules_free. apply heap_of_live.
  Qed.
  Lemma benchmark_zero_iterations (M : bench T) B rand laps b : usable M B -> never_completes (benchmark M 0 rand laps b) ∅.
  Proof.
    intros HM. pose proof HM as (Hrows & Hcols & Hn & _). unfold benchmark. rewrite Hrows, Hcols, Hn.
    set (x := vector_random rand (c_cols B)). assert (Hx : length x = c_cols B) by (unfold x, vector_random; by rewrite fmap_length, seq_length).
    destruct (usable_passes M B 0 x (replicate (c_rows B) s0) b HM Hx (replicate_length _ _)) as (y' & Hlen & Hp).
    eapply never_completes_bind; [apply vector_zero_spec|].
    eapply never_completes_bind; [exact Hp|].
    apply never_completes_fail.
  Qed.
End harness.

(** ** dimensions of what the constructors make *)
Lemma bind_ok {A B} (m : outcome A) (f : A -> outcome B) (r : B) : (m ≫= f) = Ok r -> exists a, m = Ok a /\ f a = Ok r.
Proof. destruct m; [|done..]. by exists a. Qed.
Ltac inv_ok H := repeat (lazymatch type of H with (_ ≫= _) = Ok _ => let a := fresh "a" in let E := fresh "E" in apply bind_ok in H as (a & E & H); cbv beta in H; repeat match type of H with context [let '(_, _) := ?p in _] => destruct p end end).
Section dims.
  Context {T : Type} `{Scalar T} `{Widths}.
  Implicit Types (B : coo T).
  Lemma cswr_dims B w A B' : Coo_to_Cswr B w = Ok (A, B') -> w_rows A = c_rows B /\ w_cols A = c_cols B /\ w_nnz A = c_nnz B.
  Proof. unfold Coo_to_Cswr. cbv zeta. intros HA. inv_ok HA. by injection HA as <- <-. Qed.
  Lemma csr_dims B A B' : Coo_to_Csr B = Ok (A, B') -> csr_rows A = c_rows B /\ csr_cols A = c_cols B.
  Proof. unfold Coo_to_Csr, csr_build. cbv zeta. intros HA. inv_ok HA. injection HA as <- <-. inv_ok E0. by injection E0 as <-. Qed.
  Lemma csbr_dims workers B roff nbr coff nbc A parts B' : Coo_to_Csbr workers B roff nbr coff nbc = Ok (A, parts, B') ->
    sb_rows A = c_rows B /\ sb_cols A = c_cols B /\ sb_nnz A = c_nnz B.
  Proof. unfold Coo_to_Csbr. cbv zeta. intros HA. inv_ok HA. by injection HA as <- <- <-. Qed.
  Lemma csbr2_dims B roff nbr coff nbc A B' : Coo_to_Csbr2 B roff nbr coff nbc = Ok (A, B') ->
    s2_rows A = c_rows B /\ s2_cols A = c_cols B /\ s2_nnz A = c_nnz B.
  Proof. unfold Coo_to_Csbr2. cbv zeta. intros HA. inv_ok HA. by injection HA as <- <-. Qed.
  Lemma cgbr_dims choose bal workers B roff nbr coff nbc A balanced parts B' : Coo_to_Cgbr choose bal workers B roff nbr coff nbc = Ok (A, balanced, parts, B') ->
    cg_rows A = c_rows B /\ cg_cols A = c_cols B /\ cg_nnz A = c_nnz B.
  Proof. unfold Coo_to_Cgbr, cgbr_fill. cbv zeta. intros HA. inv_ok HA. injection HA as <- <- <- <-. inv_ok E3. by injection E3 as <- <-. Qed.
  Lemma cgbr2_dims make workers B roff nbr coff nbc A parts B' : Coo_to_Cgbr2 make workers B roff nbr coff nbc = Ok (A, parts, B') ->
    cg_rows A = c_rows B /\ cg_cols A = c_cols B /\ cg_nnz A = c_nnz B.
  Proof. unfold Coo_to_Cgbr2, cgbr_fill. cbv zeta. intros HA. inv_ok HA. injection HA as <- <- <-. inv_ok E3. by injection E3 as <- <-. Qed.
End dims.
