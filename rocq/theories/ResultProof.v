(** ResultProof.v: programs that use a cell without a value, and the parts of the comparison
    program (Result.v).  (No model definitions in this file.) *)
From Verif Require Export Result Properties_Conc Properties_Tools.

Section uninit.
  Context {V : Type}.
  Notation loc := (list bool * nat)%type.
  (** p does not write, allocate or free the cell l *)
  Fixpoint untouched {A} (l : loc) (p : prog V A) : Prop :=
    match p with
    | Ret _ | Fail _ => True
    | Read _ k => forall v, untouched l (k v)
    | Write l' _ k => l' <> l /\ untouched l k
    | Alloc b _ _ k | Free b _ k => b <> l.1 /\ untouched l k
    | Fork p q k => untouched l p /\ untouched l q /\ untouched l k
    end.
  (** every complete execution of p reads l before it changes it *)
  Fixpoint starts {A} (l : loc) (p : prog V A) : Prop :=
    match p with
    | Ret _ => False
    | Fail _ => True
    | Read l' k => l' = l \/ forall v, starts l (k v)
    | Write l' _ k => l' <> l /\ starts l k
    | Alloc b _ _ k | Free b _ k => b <> l.1 /\ starts l k
    | Fork p q k => (starts l p /\ untouched l q) \/ (untouched l p /\ starts l q) \/ (untouched l p /\ untouched l q /\ starts l k)
    end.
  Lemma untouched_bind {A B} (l : loc) (p : prog V A) (f : A -> prog V B) : untouched l p -> (forall a, untouched l (f a)) -> untouched l (p ≫= f).
  Proof.
    unfold mbind, prog_bind. intros Hp Hf.
    induction p as [A a|A e|A l' k IH|A l' v k IH|A b n c k IH|A b n k IH|A p IHp q IHq k IHk]; simpl in *; try done; naive_solver.
  Qed.
  Lemma untouched_lift {A} (l : loc) (m : outcome A) : untouched l (lift m : prog V A).
  Proof. by destruct m. Qed.
  Lemma untouched_pfor (l : loc) (body : nat -> prog V unit) n lo : (forall i, untouched l (body i)) -> untouched l (pfor n lo body).
  Proof. intros Hb. revert lo. induction n as [|n IH]; intros lo; [done|]. cbn [pfor]. by apply untouched_bind. Qed.
  Lemma untouched_parfor (l : loc) (body : nat -> prog V unit) n : forall lo, (forall i, lo <= i < lo + n -> untouched l (body i)) -> untouched l (parfor n lo body).
  Proof.
    induction n as [|n IH]; intros lo Hb; [done|]. cbn [parfor untouched]. split; [apply Hb; lia|]. split; [|done]. apply IH. intros i Hi. apply Hb. lia.
  Qed.
  Lemma starts_bind_l {A B} (l : loc) (p : prog V A) (f : A -> prog V B) : starts l p -> starts l (p ≫= f).
  Proof.
    unfold mbind, prog_bind.
    induction p as [A a|A e|A l' k IH|A l' v k IH|A b n c k IH|A b n k IH|A p IHp q IHq k IHk]; simpl in *; try done; naive_solver.
  Qed.
  Lemma starts_bind_r {A B} (l : loc) (p : prog V A) (f : A -> prog V B) : untouched l p -> (forall a, starts l (f a)) -> starts l (p ≫= f).
  Proof.
    unfold mbind, prog_bind. intros Hp Hf.
    induction p as [A a|A e|A l' k IH|A l' v k IH|A b n c k IH|A b n k IH|A p IHp q IHq k IHk]; simpl in *; try done; naive_solver.
  Qed.
  Lemma starts_lift {A B} (l : loc) (m : outcome A) (f : A -> prog V B) : (forall a, m = Ok a -> starts l (f a)) -> starts l (lift m ≫= f).
  Proof. intros Hf. destruct m; cbn; auto. Qed.
  Lemma starts_parfor (l : loc) (body : nat -> prog V unit) n : forall lo i, lo <= i < lo + n -> starts l (body i) -> (forall j, j <> i -> untouched l (body j)) -> starts l (parfor n lo body).
  Proof.
    induction n as [|n IH]; intros lo i Hi Hs Hu; [lia|]. cbn [parfor starts].
    destruct (decide (i = lo)) as [->|].
    - left. split; [done|]. apply untouched_parfor. intros j Hj. apply Hu. lia.
    - right. left. split; [by apply Hu; lia|]. apply (IH _ i); [lia|done|done].
  Qed.
  Lemma step_untouched {A} (c c' : prog V A * heap V) : step A c c' -> forall l : loc, untouched l c.1 -> untouched l c'.1 /\ c'.2 !! l = c.2 !! l.
  Proof.
    induction 1 as [A l' k h v Hv|A l' v k h c Hc|A b n c k h Hf|A b n k h Hl|A p q k h p' h' _ IH|A p q k h q' h' _ IH|A k h];
      intros l Hu; cbn [fst snd untouched] in *.
    - by split.
    - destruct Hu as [H1 H2]. split; [done|]. rewrite upd_lookup. by rewrite decide_False by congruence.
    - destruct Hu as [H1 H2]. split; [done|]. rewrite set_cells_lookup. rewrite decide_False; [done|]. intros [E _]. congruence.
    - destruct Hu as [H1 H2]. split; [done|]. rewrite set_cells_lookup. rewrite decide_False; [done|]. intros [E _]. congruence.
    - destruct Hu as (H1 & H2 & H3). destruct (IH l H1). done.
    - destruct Hu as (H1 & H2 & H3). destruct (IH l H2). done.
    - split; [|done]. apply Hu.
  Qed.
  Lemma step_starts {A} (c c' : prog V A * heap V) : step A c c' -> forall l : loc, c.2 !! l = Some None -> starts l c.1 -> starts l c'.1 /\ c'.2 !! l = Some None.
  Proof.
    induction 1 as [A l' k h v Hv|A l' v k h c Hc|A b n c k h Hf|A b n k h Hl|A p q k h p' h' Hs IH|A p q k h q' h' Hs IH|A k h];
      intros l Hn Hu; cbn [fst snd starts] in *.
    - destruct Hu as [->|Hu]; [congruence|]. by split.
    - destruct Hu as [H1 H2]. split; [done|]. rewrite upd_lookup. by rewrite decide_False by congruence.
    - destruct Hu as [H1 H2]. split; [done|]. rewrite set_cells_lookup. rewrite decide_False; [done|]. intros [E _]. congruence.
    - destruct Hu as [H1 H2]. split; [done|]. rewrite set_cells_lookup. rewrite decide_False; [done|]. intros [E _]. congruence.
    - destruct Hu as [[H1 H2]|[[H1 H2]|(H1 & H2 & H3)]].
      + destruct (IH l Hn H1). split; [|done]. by left.
      + destruct (step_untouched _ _ Hs l H1) as [U1 U2]; cbn [fst snd] in *. split; [|congruence]. right; left. done.
      + destruct (step_untouched _ _ Hs l H1) as [U1 U2]; cbn [fst snd] in *. split; [|congruence]. right; right. done.
    - destruct Hu as [[H1 H2]|[[H1 H2]|(H1 & H2 & H3)]].
      + destruct (step_untouched _ _ Hs l H2) as [U1 U2]; cbn [fst snd] in *. split; [|congruence]. left. done.
      + destruct (IH l Hn H2). split; [|done]. right; by left.
      + destruct (step_untouched _ _ Hs l H2) as [U1 U2]; cbn [fst snd] in *. split; [|congruence]. right; right. done.
    - split; [|done]. destruct Hu as [[[] _]|[[_ []]|(_ & _ & H3)]]. done.
  Qed.
  (** a program that reads a cell without a value *)
  Lemma always_undefined_starts {A} (p : prog V A) (h : heap V) (l : loc) : only_ub p -> h !! l = Some None -> starts l p -> always_undefined p h.
  Proof.
    intros Hu Hn Hd. split; [apply step_acc|]. intros p' h' Hr.
    assert (Hinv : only_ub p' /\ starts l p').
    { change p' with ((p', h').1). change p with ((p, h).1) in Hu, Hd. change h with ((p, h).2) in Hn. revert Hr Hu Hn Hd. generalize (p, h) (p', h').
      intros c c' Hr. induction Hr as [c|c1 c2 c3 H12 _ IH]; [done|]. intros Hc Hn Hd. destruct (step_starts _ _ H12 l Hn Hd) as [S1 S2]. apply IH; [by eapply step_only_ub|done|done]. }
    destruct Hinv as [Hu' Hs']. destruct (progress p' h' Hu') as [[a ->]|[Hx|Hx]]; [done|by right|by left].
  Qed.
  Lemma ub_next_bind {A B} (p : prog V A) (f : A -> prog V B) h : ub_next p h -> ub_next (pbind p f) h.
  Proof. by destruct p. Qed.
  Lemma rtc_bind_inv {A B} (p : prog V A) (f : A -> prog V B) h c : rtc (step B) (pbind p f, h) c ->
    (exists p' h', rtc (step A) (p, h) (p', h') /\ ~ is_ret p' /\ c = (pbind p' f, h')) \/
    (exists a h', rtc (step A) (p, h) (Ret a, h') /\ rtc (step B) (f a, h') c).
  Proof.
    intros Hr. remember (pbind p f, h) as c0 eqn:Ec. revert p h Ec. induction Hr as [c|c0 c1 c2 H1 Hr IH]; intros p h ->.
    - destruct (is_ret_dec p) as [Hp|Hp]; [right|left].
      + destruct Hp as [a ->]. exists a, h. split; [apply rtc_refl|]. cbn. apply rtc_refl.
      + exists p, h. split; [apply rtc_refl|]. done.
    - destruct (is_ret_dec p) as [Hp|Hp].
      + right. destruct Hp as [a ->]. exists a, h. split; [apply rtc_refl|]. by eapply rtc_l.
      + destruct (pbind_step p f h c1 Hp H1) as (p' & h' & -> & H2).
        destruct (IH p' h' eq_refl) as [(p2 & h2 & R1 & R2 & R3)|(a & h2 & R1 & R2)].
        * left. exists p2, h2. split; [by eapply rtc_l|]. done.
        * right. exists a, h2. split; [by eapply rtc_l|]. done.
  Qed.
  Lemma always_undefined_bind_l {A B} (p : prog V A) (f : A -> prog V B) h : always_undefined p h -> always_undefined (p ≫= f) h.
  Proof.
    intros [_ Hu]. split; [apply step_acc|]. intros p' h' Hr. apply rtc_bind_inv in Hr as [(p2 & h2 & R1 & R2 & [= -> ->])|(a & h2 & R1 & _)].
    - destruct (Hu _ _ R1) as [[[p3 h3] Hs]|Hx]; [left; eexists; by apply step_pbind|right; by apply ub_next_bind].
    - destruct (Hu _ _ R1) as [[c Hs]|[]]. inversion Hs.
  Qed.
  Lemma always_undefined_bind_r {A B} (p : prog V A) (f : A -> prog V B) h a h1 : all_schedules p h a h1 -> always_undefined (f a) h1 -> always_undefined (p ≫= f) h.
  Proof.
    intros [_ Hs] [_ Hu]. split; [apply step_acc|]. intros p' h' Hr. apply rtc_bind_inv in Hr as [(p2 & h2 & R1 & R2 & [= -> ->])|(a' & h2 & R1 & R2)].
    - destruct (Hs _ _ R1) as (_ & _ & [[[p3 h3] Hx]|[-> _]]); [left; eexists; by apply step_pbind|]. destruct R2. by eexists.
    - destruct (Hs _ _ R1) as (_ & _ & [[c Hx]|[[= ->] ->]]); [inversion Hx|]. by apply Hu.
  Qed.
  Lemma always_undefined_fail {A} u h : always_undefined (Fail (FUndef u) : prog V A) h.
  Proof.
    split; [apply step_acc|]. intros p' h' Hr. right. inversion Hr as [|c1 c2 c3 Hs _]; subst; [by exists u|]. inversion Hs.
  Qed.
End uninit.

Section csr_uninit.
  Context {T : Type} `{Scalar T} `{Widths}.
  Implicit Types (B : coo T) (A : csr T) (x : list T) (b : buf).
  (** the CSR product into a vector one of whose elements has no value, in a row that is not empty *)
  Lemma csr_spmv_uninit B A B' x b (h : heap T) (e : elem T) : csr_able B -> Coo_to_Csr B = Ok (A, B') -> e ∈ c_elems B ->
    h !! (b, row e) = Some None -> always_undefined (csr_spmv A x b) h.
  Proof.
    intros (H1 & H2 & H3) HA He Hh.
    destruct (csr_facts B A B' (replicate (c_cols B) s0) (replicate (c_rows B) s0) H1 H2 H3 HA) as (Hrows & Hrep & _); [by rewrite replicate_length..|].
    assert (Hr : row e < c_rows B) by (unfold in_range in H1; rewrite Forall_forall in H1; by apply H1).
    apply (always_undefined_starts _ _ (b, row e)); [|done|].
    - unfold csr_spmv, spmv_csr. apply only_ub_parfor. intros i.
      apply only_ub_bind; [apply only_ub_lift, okub_aget|]. intros st. apply only_ub_bind; [apply only_ub_lift, okub_aget|]. intros en. apply csr_row_only_ub.
    - unfold csr_spmv, spmv_csr. rewrite Hrows.
      assert (Hu : forall i st en, i <> row e -> untouched (b, row e) (csr_row (csr_vals A) (csr_ind A) 0 st en x 0 b 0 i)).
      { intros i st en Hi. unfold csr_row, pfor_range. apply untouched_pfor. intros k. apply untouched_bind; [apply untouched_lift|]. intros t. cbn. split; [|done]. congruence. }
      apply (starts_parfor _ _ _ 0 (row e)); [lia| |].
      + destruct (Hrep (row e) Hr) as (st & R1 & R2 & _). apply starts_lift. intros st' E1. rewrite R1 in E1. injection E1 as <-.
        apply starts_lift. intros en E2. rewrite R2 in E2. injection E2 as <-.
        assert (Hne : 0 < length (bfilter (in_row (row e)) (isort compare_row (c_elems B)))).
        { assert (Hin : e ∈ bfilter (in_row (row e)) (isort compare_row (c_elems B))).
          { apply elem_of_bfilter. split; [by rewrite isort_perm|unfold in_row; by rewrite Nat.eqb_refl]. }
          destruct (bfilter _ _); [by apply elem_of_nil in Hin|cbn; lia]. }
        destruct (length (bfilter _ _)) as [|n]; [lia|]. unfold csr_row, pfor_range. replace (st + S n - st) with (S n) by lia. cbn [pfor].
        apply starts_bind_l. apply starts_lift. intros t _. cbn. by left.
      + intros j Hj. apply untouched_bind; [apply untouched_lift|]. intros st. apply untouched_bind; [apply untouched_lift|]. intros en. by apply Hu.
  Qed.
End csr_uninit.

Section parts.
  Context {T : Type} `{Scalar T} {W : Widths}.
  Context (neq : T -> T -> bool).
  Implicit Types (B : coo T) (x v w z : list T) (b : buf) (h : heap T).

  Lemma all_schedules_read (l : list bool * nat) (t : T) h : h !! l = Some (Some t) -> all_schedules (read l) h t h.
  Proof.
    intros Hl. split; [apply step_acc|]. intros p' h' Hr. inversion Hr as [|c1 c2 c3 Hs Hr']; subst.
    - split; [intros Hx; by apply (Hx t)|]. split; [by intros []|]. left. eexists. by apply S_read.
    - inversion Hs; subst. rewrite Hl in *. match goal with E : Some _ = Some _ |- _ => injection E as <- end.
      inversion Hr' as [|c1 c2 c3 Hs' _]; subst; [|inversion Hs']. split; [by intros []|]. split; [by intros []|]. by right.
  Qed.
  Lemma read_vector_spec b v h : (forall i t, v !! i = Some t -> h !! (b, i) = Some (Some t)) -> all_schedules (read_vector b (length v) 0) h v h.
  Proof.
    intros Hv. assert (Hg : forall l i, (forall j t, l !! j = Some t -> h !! (b, i + j) = Some (Some t)) -> all_schedules (read_vector b (length l) i) h l h).
    { induction l as [|t l IH]; intros i Hl; cbn [length read_vector]; [apply all_schedules_ret|].
      eapply all_schedules_bind; [apply all_schedules_read; rewrite <- (Nat.add_0_r i); by apply Hl|].
      eapply all_schedules_bind; [apply IH; intros j u Hj; rewrite Nat.add_succ_comm; by apply Hl|]. apply all_schedules_ret. }
    by apply (Hg v 0).
  Qed.
  Lemma heap_of_here b v i t : v !! i = Some t -> heap_of b v !! (b, i) = Some (Some t).
  Proof. intros Hi. rewrite heap_of_lookup. cbn [fst snd]. rewrite decide_True by (split; [done|by eapply lookup_lt_Some]). by rewrite Hi. Qed.
  Lemma heap_of_elsewhere b b' v i : b <> b' -> heap_of b' v !! (b, i) = None.
  Proof. intros Hb. rewrite heap_of_lookup. apply decide_False. cbn. tauto. Qed.
  Lemma y12 : y1 <> y2.
  Proof. done. Qed.
  Lemma y12_separate : separate y1 y2.
  Proof. split; intros [l Hl]; discriminate. Qed.
  (** the memory during the comparison *)
  Definition both v w : heap T := heap_of y1 v ∪ heap_of y2 w.
  Lemma both_swap v w : both v w = heap_of y2 w ∪ heap_of y1 v.
  Proof. apply (union_swap (below y1) (below y2)); [apply separate_apart, y12_separate|apply heap_of_within..]. Qed.
  Lemma out1 v : outside_of (below y2) (heap_of y1 v).
  Proof. eapply within_outside; [|apply heap_of_within]. intros b H1 H2. by apply (separate_apart _ _ y12_separate b). Qed.
  Lemma out2 v : outside_of (below y1) (heap_of y2 v).
  Proof. eapply within_outside; [|apply heap_of_within]. apply separate_apart, y12_separate. Qed.
  Lemma both_1 v w i t : v !! i = Some t -> both v w !! (y1, i) = Some (Some t).
  Proof. intros Hi. apply union_some. by apply heap_of_here. Qed.
  Lemma both_2 v w i t : w !! i = Some t -> both v w !! (y2, i) = Some (Some t).
  Proof. intros Hi. rewrite both_swap. apply union_some. by apply heap_of_here. Qed.
  Lemma into1 (p : prog T unit) v v' w : allocs (below y1) p -> all_schedules p (heap_of y1 v) tt (heap_of y1 v') -> all_schedules p (both v w) tt (both v' w).
  Proof. intros Ha Hs. apply (all_schedules_frame (below y1)); [done|done|apply heap_of_within|apply out2]. Qed.
  Lemma into2 (p : prog T unit) v w w' : allocs (below y2) p -> all_schedules p (heap_of y2 w) tt (heap_of y2 w') -> all_schedules p (both v w) tt (both v w').
  Proof. intros Ha Hs. rewrite !both_swap. apply (all_schedules_frame (below y2)); [done|done|apply heap_of_within|apply out1]. Qed.
  Lemma clear_spec v w n : length w = n -> all_schedules (pfor n 0 (fun i => write (y2, i) (s0 : T))) (both v w) tt (both v (replicate n s0)).
  Proof.
    intros Hw. apply into2; [apply allocs_pfor; done|].
    replace (replicate n (s0 : T)) with (replicate (0 + n) (s0 : T) ++ drop (0 + n) w) by (rewrite drop_ge by lia; by rewrite app_nil_r).
    change (heap_of y2 w) with (heap_of y2 (replicate 0 s0 ++ drop 0 w)).
    apply (all_schedules_pfor n 0 _ (fun i => heap_of y2 (replicate i s0 ++ drop i w))).
    intros i Hi. assert (Hl : i < length (replicate i (s0 : T) ++ drop i w)) by (rewrite app_length, replicate_length, drop_length; lia).
    replace (heap_of y2 (replicate (S i) s0 ++ drop (S i) w)) with (upd (Some (Some (s0 : T))) (y2, i) (heap_of y2 (replicate i s0 ++ drop i w))).
    - apply all_schedules_write. rewrite heap_of_lookup. cbn [fst snd]. rewrite decide_True by done. by eexists.
    - rewrite heap_of_write by done. f_equal. destruct (lookup_lt_is_Some_2 w i) as [t Ht]; [lia|].
      rewrite (drop_S _ _ _ Ht), replicate_S_end, <- app_assoc. cbn [app].
      rewrite insert_app_r_alt by (rewrite replicate_length; lia). rewrite replicate_length, Nat.sub_diag. done.
  Qed.
  Lemma check_spec v z rows r : length v = rows -> length z = rows -> check_results neq v z rows = Ok r -> all_schedules (check neq rows) (both v z) r (both v z).
  Proof.
    intros Hv Hz Hr. unfold check. eapply all_schedules_bind; [rewrite <- Hv; apply read_vector_spec; intros i t Hi; by apply both_1|].
    eapply all_schedules_bind; [rewrite <- Hz; apply read_vector_spec; intros i t Hi; by apply both_2|]. by apply all_schedules_lift.
  Qed.
  Lemma part_spec convert B x m B' v z rows r : convert B = Ok (m, B') -> (exists W' : Widths, product (H0 := W') m) -> c_rows B' = rows ->
    all_schedules (m x y2) (heap_of y2 (replicate rows s0)) tt (heap_of y2 z) -> length v = rows -> length z = rows -> check_results neq v z rows = Ok r ->
    all_schedules (compare_part neq convert B x) (both v (replicate rows s0)) (r, B') (both v (replicate rows s0)).
  Proof.
    intros HC [W' Hm] HB Hs Hv Hz Hr. unfold compare_part. rewrite HC. cbn [lift mbind prog_bind pbind].
    eapply all_schedules_bind; [apply into2; [by apply (product_allocs (H0 := W'))|exact Hs]|]. rewrite HB.
    eapply all_schedules_bind; [by apply check_spec|]. eapply all_schedules_bind; [by apply clear_spec|]. apply all_schedules_ret.
  Qed.
  Lemma setup2_spec n : all_schedules (vector_zero y2 n) (heap_of y1 (replicate n s0)) tt (both (replicate n s0) (replicate n s0)).
  Proof.
    rewrite both_swap. rewrite <- (map_empty_union (heap_of y1 (replicate n s0))) at 1.
    apply (all_schedules_frame (below y2)); [apply vector_zero_spec| |intros l [c Hc]; by rewrite lookup_empty in Hc|apply out1].
    unfold vector_zero. apply allocs_bind; [split; [apply below_self|done]|]. intros _. by apply allocs_pfor.
  Qed.
  Lemma teardown1_spec v w n : length v = n -> all_schedules (free y1 n) (both v w) tt (heap_of y2 w).
  Proof.
    intros Hv. rewrite <- (map_empty_union (heap_of y2 w)). apply (all_schedules_frame (below y1) _ _ _ ∅); [|done|apply heap_of_within|apply out2].
    rewrite <- Hv, <- (heap_of_release y1 v). apply all_schedules_free, heap_of_live.
  Qed.
  Lemma teardown2_spec w n : length w = n -> all_schedules (free y2 n) (heap_of y2 w) tt ∅.
  Proof. intros Hw. rewrite <- Hw, <- (heap_of_release y2 w). apply all_schedules_free, heap_of_live. Qed.
End parts.
