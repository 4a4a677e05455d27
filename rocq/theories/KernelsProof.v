(** KernelsProof.v: what the kernels of Kernels.v do to y, from structure
    predicates that do not mention any constructor. *)
From Verif Require Export Kernels Performs.

Section proofs.
  Context {T : Type} `{Scalar T}.
  Implicit Types (b : buf) (x : list T) (E : list (elem T)).

  Lemma at_drop x xo j : at_ (drop xo x) j = at_ x (xo + j).
  Proof. unfold at_. rewrite !nth_lookup, lookup_drop. done. Qed.
  Lemma xget_ok x xo j : xo + j < length x -> xget x xo j = Ok (at_ (drop xo x) j).
  Proof.
    intros Hj. unfold xget. apply lget_some. rewrite at_drop. unfold at_.
    destruct (nth_lookup_or_length x (xo + j) s0); [done|lia].
  Qed.

  Lemma performs_eta p b o n π (g : nat -> T -> T) : performs p b o n π g -> performs p b o n π (fun k y => g k y).
  Proof. done. Qed.

  (** read a cell, compute, write it back *)
  Lemma performs_cellM (f : T -> T) (m : T -> outcome T) b o n (π : buf -> Prop) i : i < n ->
    (forall v, m v = Ok (f v)) ->
    performs (v ← read (b, o + i); r ← lift (m v); write (b, o + i) r) b o n π
             (fun k y => if decide (k = i) then f y else y).
  Proof.
    intros Hi Hm.
    pose proof (performs_cell f b o n π i Hi) as [Hf Hr]. split.
    - apply fp_bind; [apply fp_read; left; split; simpl; [done|lia]|].
      intros v. rewrite Hm. apply (fp_write _ _ (b, o + i) (f v)). left. split; simpl; [done|lia].
    - intros h Hv Hp. rewrite <- Hr by done. rewrite !run_bind.
      destruct (run (read (b, o + i)) h) as [[v h']| | |]; simpl; try done. by rewrite Hm.
  Qed.

  Lemma performs_cellM0 (f : T -> T) (m : T -> outcome T) b o (π : buf -> Prop) :
    (forall v, m v = Ok (f v)) ->
    performs (v ← read (b, o); r ← lift (m v); write (b, o) r) b o 1 π (fun _ => f).
  Proof.
    intros Hm. pose proof (performs_cellM f m b o 1 π 0 ltac:(lia) Hm) as Hp. rewrite Nat.add_0_r in Hp.
    eapply performs_ext; [|exact Hp]. intros k y Hk. cbv beta. by rewrite decide_True by lia.
  Qed.

  (** ** coordinate kernel *)
  Definition coo_rep (v : arr T) (ri ci : arr nat) (s : nat) E : Prop :=
    forall k e, E !! k = Some e -> aget v (s + k) = Ok (val e) /\ aget ri (s + k) = Ok (row e) /\ aget ci (s + k) = Ok (col e).
  Lemma row_acc_fold E x k y :
    fold_left (fun y e => if decide (k = row e) then accum x y e else y) E y = row_acc E x k y.
  Proof.
    revert y. induction E as [|e E IH]; intros y; [done|]. cbn [fold_left]. rewrite IH, row_acc_cons.
    destruct (decide (k = row e)) as [->|Hne]; [by rewrite Nat.eqb_refl|].
    by rewrite (proj2 (Nat.eqb_neq (row e) k)) by done.
  Qed.
  Lemma fold_imap {A B} (f : B -> A -> B) (g : B -> nat -> B) (l : list A) (s : nat) :
    (forall i a acc, l !! i = Some a -> g acc (s + i) = f acc a) ->
    forall acc, fold_left g (seq s (length l)) acc = fold_left f l acc.
  Proof.
    revert s. induction l as [|a l IH]; intros s Hg acc; [done|]. cbn [length seq fold_left].
    pose proof (Hg 0 a acc eq_refl) as H0. rewrite Nat.add_0_r in H0. rewrite H0.
    apply IH. intros i a' acc' Hi. rewrite <- (Hg (S i) a' acc') by done. f_equal. lia.
  Qed.
  Lemma performs_spmv_coo (v : arr T) (ri ci : arr nat) s E rows cols x xo b o (π : buf -> Prop) :
    coo_rep v ri ci s E -> in_range rows cols E -> xo + cols <= length x ->
    performs (spmv_coo v ri ci s (length E) x xo b o) b o rows π (fun k y => row_acc E (drop xo x) k y).
  Proof.
    intros Hrep Hin Hx. unfold spmv_coo.
    eapply performs_ext; [|apply (performs_pfor _ (length E) 0 b o rows π
      (fun i k y => match E !! i with Some e => if decide (k = row e) then accum (drop xo x) y e else y | None => y end))].
    - intros k y Hk. cbv beta.
      rewrite (fold_imap (fun y e => if decide (k = row e) then accum (drop xo x) y e else y)).
      + apply row_acc_fold.
      + intros i a acc Hi. simpl. by rewrite Hi.
    - intros i Hi. destruct (lookup_lt_is_Some_2 E i) as [e He]; [lia|]. rewrite He.
      destruct (Hrep i e He) as (H1 & H2 & H3).
      unfold in_range in Hin. rewrite Forall_lookup in Hin. destruct (Hin i e He) as [Hr Hc].
      eapply performs_lift; [exact H2|]. eapply performs_lift.
      + unfold prod_at. rewrite H1, H3. cbn [mbind outcome_bind]. rewrite xget_ok by lia. done.
      + apply (performs_cell (fun y => accum (drop xo x) y e)). done.
  Qed.
  Lemma performs_spmv_coo_aos E rows cols x xo b o (π : buf -> Prop) :
    in_range rows cols E -> xo + cols <= length x ->
    performs (spmv_coo_aos (full E) (length E) x xo b o) b o rows π (fun k y => row_acc E (drop xo x) k y).
  Proof.
    intros Hin Hx. unfold spmv_coo_aos.
    eapply performs_ext; [|apply (performs_pfor _ (length E) 0 b o rows π
      (fun i k y => match E !! i with Some e => if decide (k = row e) then accum (drop xo x) y e else y | None => y end))].
    - intros k y Hk. cbv beta.
      rewrite (fold_imap (fun y e => if decide (k = row e) then accum (drop xo x) y e else y)).
      + apply row_acc_fold.
      + intros i a acc Hi. simpl. by rewrite Hi.
    - intros i Hi. destruct (lookup_lt_is_Some_2 E i) as [e He]; [lia|]. rewrite He.
      unfold in_range in Hin. rewrite Forall_lookup in Hin. destruct (Hin i e He) as [Hr Hc].
      eapply performs_lift; [rewrite aget_full; by apply lget_some|].
      eapply performs_lift; [apply xget_ok; lia|].
      apply (performs_cell (fun y => accum (drop xo x) y e)). done.
  Qed.

  (** ** CSR: [R i] lists the elements of row i in the order they are stored *)
  Definition csr_rep (rp : arr nat) (rs : nat) (ci : arr nat) (v : arr T) (s M : nat) (R : nat -> list (elem T)) : Prop :=
    forall i, i < M -> exists st, aget rp (rs + i) = Ok st /\ aget rp (rs + (i + 1)) = Ok (st + length (R i)) /\
      forall k e, R i !! k = Some e -> aget ci (s + (st + k)) = Ok (col e) /\ aget v (s + (st + k)) = Ok (val e).
  Definition cols_ok (M cols : nat) (R : nat -> list (elem T)) : Prop :=
    forall i, i < M -> Forall (fun e => col e < cols) (R i).

  Lemma performs_csr_row (v : arr T) ci s st L x xo b o n (π : buf -> Prop) i cols :
    (forall k e, L !! k = Some e -> aget ci (s + (st + k)) = Ok (col e) /\ aget v (s + (st + k)) = Ok (val e)) ->
    Forall (fun e => col e < cols) L -> xo + cols <= length x -> i < n ->
    performs (csr_row v ci s st (st + length L) x xo b o i) b o n π
      (fun k y => if decide (k = i) then fold_left (accum (drop xo x)) L y else y).
  Proof.
    intros Hrep Hc Hx Hi. unfold csr_row, pfor_range. replace (st + length L - st) with (length L) by lia.
    eapply performs_ext; [|apply (performs_pfor _ (length L) st b o n π
      (fun j k y => match L !! (j - st) with Some e => if decide (k = i) then accum (drop xo x) y e else y | None => y end))].
    - intros k y Hk. cbv beta.
      rewrite (fold_imap (fun y e => if decide (k = i) then accum (drop xo x) y e else y)).
      + destruct (decide (k = i)); [done|]. clear. induction L; done.
      + intros j a acc Hj. replace (st + j - st) with j by lia. by rewrite Hj.
    - intros j Hj. destruct (lookup_lt_is_Some_2 L (j - st)) as [e He]; [lia|]. rewrite He.
      destruct (Hrep _ _ He) as [H1 H2]. replace (s + (st + (j - st))) with (s + j) in * by lia.
      rewrite Forall_lookup in Hc. pose proof (Hc _ _ He) as Hce.
      eapply performs_lift.
      + unfold prod_at. rewrite H1, H2. cbn [mbind outcome_bind]. rewrite xget_ok by lia. done.
      + apply (performs_cell (fun y => accum (drop xo x) y e)). done.
  Qed.
  Lemma csr_row_reg_ok (v : arr T) ci st L x xo acc cols :
    (forall k e, L !! k = Some e -> aget ci (st + k) = Ok (col e) /\ aget v (st + k) = Ok (val e)) ->
    Forall (fun e => col e < cols) L -> xo + cols <= length x ->
    csr_row_reg v ci st (st + length L) x xo acc = Ok (fold_left (accum (drop xo x)) L acc).
  Proof.
    intros Hrep Hc Hx. apply wp_eq. unfold csr_row_reg.
    eapply wp_mono; [apply (wp_for_range (fun j acc' => acc' = fold_left (accum (drop xo x)) (take (j - st) L) acc))|].
    - lia.
    - by rewrite Nat.sub_diag.
    - intros j acc' Hj ->. destruct (lookup_lt_is_Some_2 L (j - st)) as [e He]; [lia|].
      destruct (Hrep _ _ He) as [H1 H2]. replace (st + (j - st)) with j in * by lia.
      rewrite Forall_lookup in Hc. pose proof (Hc _ _ He) as Hce.
      unfold prod_at. rewrite H1, H2. cbn [mbind outcome_bind]. rewrite xget_ok by lia. cbn [mbind outcome_bind wp].
      replace (S j - st) with (S (j - st)) by lia. rewrite (take_S_r _ _ _ He), fold_left_app. done.
    - intros r ->. replace (st + length L - st) with (length L) by lia. by rewrite firstn_all.
  Qed.

  (** a parallel loop that gives each iteration its own cell *)
  Lemma performs_parfor1 (body : nat -> prog T unit) b o M (g : nat -> T -> T) :
    (forall i, i < M -> performs (body i) b (o + i) 1 (fun _ => False) (fun _ => g i)) ->
    performs (parfor M 0 body) b o M (fun _ => False) g.
  Proof.
    intros Hb.
    pose proof (performs_parfor (fun i => i) body b o (fun _ _ => False) M 0 g) as Hp.
    rewrite Nat.add_0_r, Nat.sub_0_r in Hp. eapply performs_priv; [|apply Hp].
    - by intros x (i & _ & []).
    - intros i Hi. lia.
    - intros i Hi. replace (S i - i) with 1 by lia. eapply performs_ext; [|apply Hb; lia].
      intros k y Hk. cbv beta. assert (k = 0) as -> by lia. by replace (i - 0 + 0) with i by lia.
    - done.
    - by intros i Hi [].
  Qed.
  (** ... and a sequential one *)
  Lemma performs_pfor1 (body : nat -> prog T unit) b o M (π : buf -> Prop) (g : nat -> T -> T) :
    (forall i, i < M -> performs (body i) b o M π (fun k y => if decide (k = i) then g i y else y)) ->
    performs (pfor M 0 body) b o M π g.
  Proof.
    intros Hb. eapply performs_ext; [|apply (performs_pfor body M 0 b o M π (fun i k y => if decide (k = i) then g i y else y))].
    - intros k y Hk. cbv beta.
      assert (Hgen : forall n lo y, fold_left (fun y i => if decide (k = i) then g i y else y) (seq lo n) y =
                if decide (lo <= k < lo + n) then g k y else y).
      { induction n as [|n IH]; intros lo y'; cbn [seq fold_left].
        - by rewrite decide_False by lia.
        - rewrite IH. destruct (decide (k = lo)) as [->|Hne].
          + rewrite decide_False by lia. by rewrite decide_True by lia.
          + destruct (decide (S lo <= k < S lo + n)), (decide (lo <= k < lo + S n)); try done; lia. }
      rewrite Hgen. by rewrite decide_True by lia.
    - intros i Hi. apply Hb. lia.
  Qed.
  Lemma performs_shift p b o i (π : buf -> Prop) (f : T -> T) :
    performs p b (o + i) 1 π (fun k y => if decide (k = 0) then f y else y) -> performs p b (o + i) 1 π (fun _ => f).
  Proof. apply performs_ext. intros k y Hk. by rewrite decide_True by lia. Qed.

  Lemma csr_row_move (v : arr T) ci s st en x xo b o i :
    csr_row v ci s st en x xo b o i = csr_row v ci s st en x xo b (o + i) 0.
  Proof. unfold csr_row, yadd. by rewrite Nat.add_0_r. Qed.
  Lemma performs_spmv_csr (rp : arr nat) rs ci (v : arr T) s M R cols x xo b o :
    csr_rep rp rs ci v s M R -> cols_ok M cols R -> xo + cols <= length x ->
    performs (spmv_csr rp rs ci v s M x xo b o) b o M (fun _ => False)
      (fun k y => fold_left (accum (drop xo x)) (R k) y).
  Proof.
    intros Hrep Hc Hx. unfold spmv_csr. apply performs_parfor1. intros i Hi.
    destruct (Hrep i Hi) as (st & H1 & H2 & H3).
    eapply performs_lift; [exact H1|]. eapply performs_lift; [exact H2|].
    rewrite csr_row_move. apply performs_shift. eapply performs_csr_row; eauto.
  Qed.
  Lemma performs_spmv_csr_serial (rp : arr nat) rs ci (v : arr T) s M R cols x xo b o (π : buf -> Prop) :
    csr_rep rp rs ci v s M R -> cols_ok M cols R -> xo + cols <= length x -> (M = 0 -> exists z, aget rp (rs + 0) = Ok z) ->
    performs (spmv_csr_serial rp rs ci v s M x xo b o) b o M π
      (fun k y => fold_left (accum (drop xo x)) (R k) y).
  Proof.
    intros Hrep Hc Hx H0. unfold spmv_csr_serial.
    assert (Hgen : forall n i st, i + n = M -> (0 < n -> aget rp (rs + i) = Ok st) ->
      performs (csr_serial_loop rp rs ci v s n i st x xo b o) b o M π
        (fun k y => if decide (i <= k < i + n) then fold_left (accum (drop xo x)) (R k) y else y)).
    { induction n as [|n IH]; intros i st Hi Hst; cbn [csr_serial_loop].
      - eapply performs_ext; [|apply performs_ret]. intros k y Hk. by rewrite decide_False by lia.
      - destruct (Hrep i ltac:(lia)) as (st' & H1 & H2 & H3). rewrite Hst in H1 by lia. injection H1 as <-.
        eapply performs_lift; [exact H2|].
        eapply performs_ext; [|apply performs_seq; [eapply performs_csr_row; [exact H3|apply (Hc i); lia|exact Hx|lia]|apply (IH (S i)); [lia|]]].
        + intros k y Hk. cbv beta. destruct (decide (k = i)) as [->|Hne].
          * rewrite decide_False by lia. by rewrite decide_True by lia.
          * destruct (decide (S i <= k < S i + n)), (decide (i <= k < i + S n)); try done; lia.
        + intros _. rewrite <- H2. f_equal. lia. }
    destruct (decide (M = 0)) as [HM|HM].
    - destruct (H0 HM) as [z Hz]. eapply performs_lift; [exact Hz|].
      eapply performs_ext; [|apply (Hgen M 0 z); [lia|lia]]. intros k y Hk. lia.
    - destruct (Hrep 0 ltac:(lia)) as (st & H1 & H2 & H3). eapply performs_lift; [exact H1|].
      eapply performs_ext; [|apply (Hgen M 0 st); [lia|by intros _]]. intros k y Hk. cbv beta. by rewrite decide_True by lia.
  Qed.

  Definition csr_rep0 rp ci (v : arr T) M R := csr_rep rp 0 ci v 0 M R.
  Lemma performs_spmv_csr2 (rp : arr nat) ci (v : arr T) M R cols x xo b o :
    csr_rep rp 0 ci v 0 M R -> cols_ok M cols R -> xo + cols <= length x ->
    performs (spmv_csr2 rp ci v M x xo b o) b o M (fun _ => False)
      (fun k y => fold_left (accum (drop xo x)) (R k) y).
  Proof.
    intros Hrep Hc Hx. unfold spmv_csr2. apply performs_parfor1. intros i Hi.
    destruct (Hrep i Hi) as (st & H1 & H2 & H3).
    eapply performs_lift; [exact H1|]. eapply performs_lift; [exact H2|].
    apply performs_cellM0. intros y. eapply csr_row_reg_ok; eauto.
  Qed.
  Lemma performs_spmv_csr2_serial (rp : arr nat) ci (v : arr T) M R cols x xo b o (π : buf -> Prop) :
    csr_rep rp 0 ci v 0 M R -> cols_ok M cols R -> xo + cols <= length x -> (M = 0 -> exists z, aget rp 0 = Ok z) ->
    performs (spmv_csr2_serial rp ci v M x xo b o) b o M π
      (fun k y => fold_left (accum (drop xo x)) (R k) y).
  Proof.
    intros Hrep Hc Hx H0. unfold spmv_csr2_serial.
    assert (Hgen : forall n i st, i + n = M -> (0 < n -> aget rp i = Ok st) ->
      performs (csr2_serial_loop rp ci v n i st x xo b o) b o M π
        (fun k y => if decide (i <= k < i + n) then fold_left (accum (drop xo x)) (R k) y else y)).
    { induction n as [|n IH]; intros i st Hi Hst; cbn [csr2_serial_loop].
      - eapply performs_ext; [|apply performs_ret]. intros k y Hk. by rewrite decide_False by lia.
      - destruct (Hrep i ltac:(lia)) as (st' & H1 & H2 & H3). simpl in H1. rewrite Hst in H1 by lia. injection H1 as <-.
        eapply performs_lift; [exact H2|].
        assert (Hcell : performs (res ← read (b, o + i); res0 ← lift (csr_row_reg v ci st (st + length (R i)) x xo res); write (b, o + i) res0) b o M π
                  (fun k y => if decide (k = i) then fold_left (accum (drop xo x)) (R i) y else y)).
        { apply performs_cellM; [lia|]. intros y. eapply csr_row_reg_ok; [exact H3|apply (Hc i); lia|done]. }
        pose proof (IH (S i) (st + length (R i)) ltac:(lia)) as IH'.
        assert (Hn : 0 < n -> aget rp (S i) = Ok (st + length (R i))).
        { intros _. simpl in H2. rewrite <- H2. f_equal. lia. }
        specialize (IH' Hn).
        pose proof (performs_seq _ _ b o M π _ _ Hcell IH') as Hs.
        eapply performs_ext; [|exact Hs]. intros k y Hk. cbv beta. destruct (decide (k = i)) as [->|Hne].
        + rewrite decide_False by lia. by rewrite decide_True by lia.
        + destruct (decide (S i <= k < S i + n)), (decide (i <= k < i + S n)); try done; lia. }
    destruct (decide (M = 0)) as [HM|HM].
    - destruct (H0 HM) as [z Hz]. eapply performs_lift; [exact Hz|].
      eapply performs_ext; [|apply (Hgen M 0 z); [lia|lia]]. intros k y Hk. lia.
    - destruct (Hrep 0 ltac:(lia)) as (st & H1 & H2 & H3). eapply performs_lift; [exact H1|].
      eapply performs_ext; [|apply (Hgen M 0 st); [lia|by intros _]]. intros k y Hk. cbv beta. by rewrite decide_True by lia.
  Qed.

  (** ** compressed rows: [nz] lists the stored rows, increasing; [R i] the elements
      of the i-th stored row *)
  Definition increasing (nz : list nat) : Prop := StronglySorted lt nz.
  Lemma increasing_lt nz i j a c : increasing nz -> nz !! i = Some a -> nz !! j = Some c -> i < j -> a < c.
  Proof.
    intros Hs. revert i j. induction Hs as [|d l Hs IH Hf]; intros i j Hi Hj Hij; [done|].
    destruct i as [|i], j as [|j]; simpl in *; simplify_eq; try lia.
    - rewrite Forall_forall in Hf. apply Hf. by eapply elem_of_list_lookup_2.
    - eapply (IH i j); eauto. lia.
  Qed.
  Definition crcsr_upd (nz : list nat) (R : nat -> list (elem T)) x (k : nat) (y : T) : T :=
    fold_left (fun y i => if decide (nz !! i = Some k) then fold_left (accum x) (R i) y else y) (seq 0 (length nz)) y.
  Lemma performs_crcsr_row (rp ci : arr nat) (v : arr T) nz R cols x xo b o n (π : buf -> Prop) i r d :
    csr_rep rp 0 ci v 0 (length nz) R -> cols_ok (length nz) cols R -> xo + cols <= length x ->
    nz !! i = Some r -> d <= r < d + n ->
    performs (crcsr_row rp (full nz) ci v x xo b o i) b (o + d) n π
      (fun k y => if decide (d + k = r) then fold_left (accum (drop xo x)) (R i) y else y).
  Proof.
    intros Hrep Hc Hx Hi Hr. unfold crcsr_row.
    pose proof (lookup_lt_Some _ _ _ Hi) as Hl.
    destruct (Hrep i Hl) as (st & H1 & H2 & H3).
    eapply performs_lift; [exact H1|]. eapply performs_lift; [exact H2|].
    eapply performs_lift; [rewrite aget_full; by apply lget_some|].
    replace (o + r) with (o + d + (r - d)) by lia.
    eapply performs_ext; [|apply (performs_cellM (fun y => fold_left (accum (drop xo x)) (R i) y) _ b (o + d) n π (r - d)); [lia|]].
    - intros k y Hk. cbv beta. destruct (decide (k = r - d)), (decide (d + k = r)); try done; lia.
    - intros y. eapply csr_row_reg_ok; [exact H3|by apply (Hc i)|done].
  Qed.
  Lemma performs_spmv_crcsr_serial (rp ci : arr nat) (v : arr T) nz R rows cols x xo b o (π : buf -> Prop) :
    csr_rep rp 0 ci v 0 (length nz) R -> cols_ok (length nz) cols R -> xo + cols <= length x ->
    Forall (fun r => r < rows) nz ->
    performs (spmv_crcsr_serial rp (full nz) ci v (length nz) x xo b o) b o rows π (crcsr_upd nz R (drop xo x)).
  Proof.
    intros Hrep Hc Hx Hn. unfold spmv_crcsr_serial.
    eapply performs_ext; [|apply (performs_pfor _ (length nz) 0 b o rows π
      (fun i k y => if decide (nz !! i = Some k) then fold_left (accum (drop xo x)) (R i) y else y))].
    - done.
    - intros i Hi. destruct (lookup_lt_is_Some_2 nz i) as [r Hr]; [lia|].
      rewrite Forall_lookup in Hn. pose proof (Hn _ _ Hr) as Hlt. cbv beta in Hlt.
      pose proof (performs_crcsr_row rp ci v nz R cols x xo b o rows π i r 0 Hrep Hc Hx Hr ltac:(lia)) as Hp.
      rewrite Nat.add_0_r in Hp. eapply performs_ext; [|exact Hp]. intros k y Hk. cbv beta. simpl.
      destruct (decide (k = r)), (decide (nz !! i = Some k)); try done; congruence.
  Qed.
  Lemma crcsr_upd_at nz R x k i y : increasing nz -> nz !! i = Some k -> crcsr_upd nz R x k y = fold_left (accum x) (R i) y.
  Proof.
    intros Hs Hi. unfold crcsr_upd. pose proof (lookup_lt_Some _ _ _ Hi) as Hl.
    assert (Huniq : forall j, nz !! j = Some k -> j = i).
    { intros j Hj. destruct (Nat.lt_trichotomy j i) as [Hlt|[?|Hgt]]; [|done|].
      - pose proof (increasing_lt nz j i k k Hs Hj Hi Hlt). lia.
      - pose proof (increasing_lt nz i j k k Hs Hi Hj Hgt). lia. }
    assert (Hskip : forall n lo y, (forall j, lo <= j < lo + n -> j <> i) ->
              fold_left (fun y i => if decide (nz !! i = Some k) then fold_left (accum x) (R i) y else y) (seq lo n) y = y).
    { induction n as [|n IH]; intros lo y' Hj; [done|]. cbn [seq fold_left]. rewrite decide_False.
      - apply IH. intros j Hj'. apply Hj. lia.
      - intros Hl'. apply (Hj lo); [lia|]. by apply Huniq. }
    replace (length nz) with (i + (1 + (length nz - i - 1))) by lia. rewrite seq_app, fold_left_app.
    rewrite (Hskip i 0) by lia. cbn [seq Nat.add fold_left]. rewrite decide_True by done. apply Hskip. lia.
  Qed.
  Lemma crcsr_upd_none nz R x k y : k ∉ nz -> crcsr_upd nz R x k y = y.
  Proof.
    intros Hk. unfold crcsr_upd. generalize (seq 0 (length nz)). intros l. induction l as [|i l IH]; [done|].
    cbn [fold_left]. rewrite decide_False; [done|]. intros Hi. by apply Hk, (elem_of_list_lookup_2 nz i).
  Qed.
  Lemma performs_spmv_crcsr (rp ci : arr nat) (v : arr T) nz R rows cols x xo b o :
    csr_rep rp 0 ci v 0 (length nz) R -> cols_ok (length nz) cols R -> xo + cols <= length x ->
    Forall (fun r => r < rows) nz -> increasing nz ->
    performs (spmv_crcsr rp (full nz) ci v (length nz) x xo b o) b o rows (fun _ => False) (crcsr_upd nz R (drop xo x)).
  Proof.
    intros Hrep Hc Hx Hn Hs. unfold spmv_crcsr. rewrite Forall_lookup in Hn.
    destruct (decide (length nz = 0)) as [Hz|Hz].
    { rewrite Hz. cbn [parfor]. eapply performs_ext; [|apply performs_ret]. intros k y Hk.
      apply nil_length_inv in Hz as ->. done. }
    set (off i := if i =? 0 then 0 else if i =? length nz then rows else nth i nz 0).
    assert (Hoffn : forall i r, nz !! i = Some r -> off i <= r < off (S i)).
    { intros i r Hi. pose proof (lookup_lt_Some _ _ _ Hi) as Hl. unfold off. split.
      - destruct (Nat.eqb_spec i 0); [lia|]. rewrite (proj2 (Nat.eqb_neq i (length nz))) by lia.
        by rewrite (nth_lookup_Some _ _ _ _ Hi).
      - rewrite (proj2 (Nat.eqb_neq (S i) 0)) by lia. destruct (Nat.eqb_spec (S i) (length nz)) as [He|He].
        + by apply (Hn i).
        + destruct (lookup_lt_is_Some_2 nz (S i)) as [r' Hr']; [lia|]. rewrite (nth_lookup_Some _ _ _ _ Hr').
          eapply increasing_lt; eauto. }
    pose proof (performs_parfor off (crcsr_row rp (full nz) ci v x xo b o) b o (fun _ _ => False) (length nz) 0 (crcsr_upd nz R (drop xo x))) as Hp.
    assert (Ho0 : off 0 = 0) by done. assert (Hon : off (length nz) = rows).
    { unfold off. rewrite (proj2 (Nat.eqb_neq _ 0)) by done. by rewrite Nat.eqb_refl. }
    cbn [Nat.add] in Hp. rewrite Ho0, Hon, Nat.add_0_r, Nat.sub_0_r in Hp.
    eapply performs_priv; [|apply Hp].
    - by intros ? (i & _ & []).
    - intros i Hi. destruct (lookup_lt_is_Some_2 nz i) as [r Hr]; [lia|]. pose proof (Hoffn i r Hr). lia.
    - intros i Hi. destruct (lookup_lt_is_Some_2 nz i) as [r Hr]; [lia|]. pose proof (Hoffn i r Hr) as Hoi.
      eapply performs_ext; [|eapply (performs_crcsr_row rp ci v nz R cols x xo b o _ _ i r (off i)); eauto; lia].
      intros k y Hk. cbv beta. rewrite Nat.sub_0_r.
      destruct (decide (off i + k = r)) as [<-|Hne].
      + symmetry. by apply crcsr_upd_at.
      + symmetry. apply crcsr_upd_none. intros Hin. apply elem_of_list_lookup in Hin as [j Hj].
        pose proof (Hoffn j _ Hj) as Hoj.
        destruct (Nat.lt_trichotomy j i) as [Hlt|[->|Hgt]].
        * assert (off (S j) <= off i); [|lia].
          unfold off at 2. rewrite (proj2 (Nat.eqb_neq i 0)) by lia. rewrite (proj2 (Nat.eqb_neq i (length nz))) by lia.
          rewrite (nth_lookup_Some _ _ _ _ Hr). destruct (decide (S j = i)) as [->|]; [lia|].
          destruct (lookup_lt_is_Some_2 nz (S j)) as [r' Hr']; [lia|].
          pose proof (increasing_lt nz (S j) i r' r Hs Hr' Hr ltac:(lia)). pose proof (Hoffn _ _ Hr'). lia.
        * congruence.
        * pose proof (lookup_lt_Some _ _ _ Hj) as Hjl.
          destruct (lookup_lt_is_Some_2 nz (S i)) as [r' Hr']; [lia|]. pose proof (Hoffn _ _ Hr') as [Hr1 _].
          destruct (decide (j = S i)) as [->|].
          -- unfold off at 1 in Hk. rewrite (proj2 (Nat.eqb_neq (S i) 0)) in Hk by lia. rewrite (proj2 (Nat.eqb_neq (S i) (length nz))) in Hk by lia.
             rewrite (nth_lookup_Some _ _ _ _ Hr') in Hk. simplify_eq. lia.
          -- pose proof (increasing_lt nz (S i) j r' _ Hs Hr' Hj ltac:(lia)). lia.
    - done.
    - by intros i Hi [].
  Qed.

  (** ** dense *)
  Definition dense_acc (D : list T) (N : nat) x (i : nat) (y : T) : T :=
    fold_left (fun acc j => sadd acc (smul (nth (i * N + j) D s0) (at_ x j))) (seq 0 N) y.
  Lemma dense_loop `{Widths} (D : list T) M N x xo i y :
    length D = M * N -> M * N <= itW -> i < M -> xo + N <= length x ->
    for_range 0 N (fun j temp => vij ← aget (full D) (wadd (wmul i N) j); xj ← xget x xo j; Ok (sadd temp (smul vij xj))) y
    = Ok (dense_acc D N (drop xo x) i y).
  Proof.
    intros HD Hw Hi Hx. apply wp_eq. unfold dense_acc.
    eapply wp_mono; [apply (wp_for_range (fun j acc => acc =
       fold_left (fun acc j => sadd acc (smul (nth (i * N + j) D s0) (at_ (drop xo x) j))) (seq 0 j) y))|].
    - lia.
    - done.
    - intros j acc Hj ->. assert (Hlt : i * N + j < M * N) by nia.
      assert (wadd (wmul i N) j = i * N + j) as ->.
      { unfold wadd, wmul. rewrite (wrap_small (i * N)) by lia. apply wrap_small. lia. }
      rewrite aget_full. rewrite (lget_some _ _ (nth (i * N + j) D s0)).
      2:{ destruct (nth_lookup_or_length D (i * N + j) s0); [done|lia]. }
      cbn [mbind outcome_bind]. rewrite xget_ok by lia. cbn [mbind outcome_bind wp].
      rewrite seq_S, fold_left_app. done.
    - by intros r ->.
  Qed.
  Lemma performs_spmv_dense `{Widths} (D : list T) M N x xo b o :
    length D = M * N -> M * N <= itW -> xo + N <= length x ->
    performs (spmv_dense (full D) M N x xo b o) b o M (fun _ => False) (dense_acc D N (drop xo x)).
  Proof.
    intros HD Hw Hx. unfold spmv_dense. apply performs_parfor1. intros i Hi. unfold dense_row.
    apply performs_cellM0. intros y. by eapply dense_loop.
  Qed.
  Lemma performs_spmv_dense_serial `{Widths} (D : list T) M N x xo b o (π : buf -> Prop) :
    length D = M * N -> M * N <= itW -> xo + N <= length x ->
    performs (spmv_dense_serial (full D) M N x xo b o) b o M π (dense_acc D N (drop xo x)).
  Proof.
    intros HD Hw Hx. unfold spmv_dense_serial. apply performs_pfor1. intros i Hi. unfold dense_row.
    apply performs_cellM; [lia|]. intros y. by eapply dense_loop.
  Qed.
End proofs.
