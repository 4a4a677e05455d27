(** RangeProof.v: programs that do something undefined on every schedule, and the kernels on
    elements whose coordinates lie outside the vectors.  (No model definitions in this file.) *)
From Verif Require Export ParSeq DriversProof.

(** some thread is about to do something undefined (not merely abort) *)
Fixpoint ub_next {V A} (p : prog V A) (h : heap V) : Prop :=
  match p with
  | Ret _ => False
  | Fail f => exists u, f = FUndef u
  | Read l _ => forall v, h !! l <> Some (Some v)
  | Write l _ _ => h !! l = None
  | Alloc b n _ _ => ~ all_free b n h
  | Free b n _ => ~ all_live b n h
  | Fork p q _ => ub_next p h \/ ub_next q h
  end.
(** every execution ends, and none ends normally: each one stops where a thread is about to do
    something undefined *)
Definition always_undefined {V A} (p : prog V A) (h : heap V) : Prop :=
  Acc (fun c' c => step A c c') (p, h) /\
  forall p' h', rtc (step A) (p, h) (p', h') -> (exists c, step A (p', h') c) \/ ub_next p' h'.

Section ub.
  Context {V : Type}.
  (** the only explicit failures of p are undefined behaviour *)
  Fixpoint only_ub {A} (p : prog V A) : Prop :=
    match p with
    | Ret _ => True
    | Fail f => exists u, f = FUndef u
    | Read _ k => forall v, only_ub (k v)
    | Write _ _ k => only_ub k
    | Alloc _ _ _ k => only_ub k
    | Free _ _ k => only_ub k
    | Fork p q k => only_ub p /\ only_ub q /\ only_ub k
    end.
  (** neither an abort nor an endless loop *)
  Definition okub {A} (m : outcome A) : Prop := match m with Ok _ | Undef _ => True | _ => False end.
  Lemma okub_bind {A B} (m : outcome A) (f : A -> outcome B) : okub m -> (forall a, okub (f a)) -> okub (m ≫= f).
  Proof. intros Hm Hf. destruct m; cbn; done || apply Hf. Qed.
  Lemma okub_aget {A} (a : arr A) i : okub (aget a i).
  Proof. unfold aget. by destruct (a !! i) as [[?|]|]. Qed.
  Lemma okub_lget {A} (a : list A) i : okub (lget a i).
  Proof. unfold lget. by destruct (a !! i). Qed.
  Lemma only_ub_bind {A B} (p : prog V A) (f : A -> prog V B) : only_ub p -> (forall a, only_ub (f a)) -> only_ub (p ≫= f).
  Proof.
    unfold mbind, prog_bind. intros Hp Hf.
    induction p as [A a|A e|A l k IH|A l v k IH|A b n c k IH|A b n k IH|A p IHp q IHq k IHk]; simpl in *; try done; try naive_solver.
  Qed.
  Lemma only_ub_lift {A} (m : outcome A) : okub m -> only_ub (lift m : prog V A).
  Proof. destruct m; cbn; try done. eauto. Qed.
  Lemma only_ub_pfor (body : nat -> prog V unit) n lo : (forall i, only_ub (body i)) -> only_ub (pfor n lo body).
  Proof. intros Hb. revert lo. induction n as [|n IH]; intros lo; [done|]. cbn [pfor]. by apply only_ub_bind. Qed.
  Lemma only_ub_parfor (body : nat -> prog V unit) n lo : (forall i, only_ub (body i)) -> only_ub (parfor n lo body).
  Proof. intros Hb. revert lo. induction n as [|n IH]; intros lo; [done|]. cbn [parfor only_ub]. auto. Qed.
  Lemma allocs_parfor (P : buf -> Prop) (body : nat -> prog V unit) n lo : (forall i, allocs P (body i)) -> allocs P (parfor n lo body).
  Proof. intros Hb. revert lo. induction n as [|n IH]; intros lo; [done|]. cbn [parfor allocs]. auto. Qed.
  Lemma needs_parfor (l : list bool * nat) (body : nat -> prog V unit) n : forall lo i, lo <= i < lo + n -> needs l (body i) -> needs l (parfor n lo body).
  Proof.
    induction n as [|n IH]; intros lo i Hi Hn; [lia|]. cbn [parfor needs].
    destruct (decide (i = lo)) as [->|]; [by left|]. right; left. apply (IH _ i); [lia|done].
  Qed.
  Lemma step_only_ub {A} (c c' : prog V A * heap V) : step A c c' -> only_ub c.1 -> only_ub c'.1.
  Proof.
    induction 1 as [A l' k h v Hv|A l' v k h c Hc|A b n c k h Hf|A b n k h Hl|A p q k h p' h' _ IH|A p q k h q' h' _ IH|A k h];
      cbn [fst snd only_ub] in *; naive_solver.
  Qed.
  Lemma progress {A} (p : prog V A) : forall h, only_ub p ->
    (exists a, p = Ret a) \/ ub_next p h \/ exists c, step A (p, h) c.
  Proof.
    induction p as [A a|A e|A l k IH|A l v k IH|A b n c k IH|A b n k IH|A p IHp q IHq k IHk]; intros h Hu; cbn [only_ub ub_next] in *.
    - by left; eauto.
    - by right; left.
    - right. destruct (h !! l) as [[v|]|] eqn:E; [right; eexists; by eapply S_read| |]; left; intros v; congruence.
    - right. destruct (h !! l) as [c|] eqn:E; [right; eexists; by eapply S_write|by left].
    - right. destruct (all_freeb b n h) eqn:E.
      + right. eexists. apply S_alloc. by apply all_freeb_spec.
      + left. intros Hf. apply all_freeb_spec in Hf. congruence.
    - right. destruct (all_liveb b n h) eqn:E.
      + right. eexists. apply S_free. by apply all_liveb_spec.
      + left. intros Hf. apply all_liveb_spec in Hf. congruence.
    - right. destruct Hu as (Hp & Hq & Hk).
      destruct (IHp h Hp) as [[a ->]|[Hp'|[[p' h'] Hs]]]; [|by left; left|right; eexists; by apply S_left].
      destruct (IHq h Hq) as [[a' ->]|[Hq'|[[q' h'] Hs]]]; [|by left; right|right; eexists; by apply S_right].
      right. destruct a, a'. eexists. apply S_join.
  Qed.
  Lemma always_undefined_doomed {A} (P : buf -> Prop) (p : prog V A) (h : heap V) (l : list bool * nat) :
    ~ P l.1 -> allocs P p -> only_ub p -> h !! l = None -> needs l p -> always_undefined p h.
  Proof.
    intros HP Ha Hu Hn Hd. split; [apply step_acc|]. intros p' h' Hr.
    pose proof (doomed P p h l HP Ha Hn Hd) as Hnc.
    assert (Hu' : only_ub p').
    { change p' with ((p', h').1). change p with ((p, h).1) in Hu. revert Hr Hu. generalize (p, h) (p', h').
      intros c c' Hr. induction Hr as [c|c1 c2 c3 H12 _ IH]; [done|]. intros Hc. apply IH. by eapply step_only_ub. }
    destruct (progress p' h' Hu') as [[a ->]|[Hx|Hx]]; [|by right|by left].
    exfalso. by apply (Hnc a h').
  Qed.
  Lemma always_undefined_not_defined {A} (p : prog V A) (h hf : heap V) a : always_undefined p h -> ~ all_schedules p h a hf.
  Proof.
    intros [_ Hu] Hs. destruct (Hu (Ret a) hf) as [[c Hc]|[]]; [by apply all_schedules_reachable|]. inversion Hc.
  Qed.
End ub.

Section kernels.
  Context {T : Type} `{Scalar T} `{Widths}.
  Implicit Types (E : list (elem T)) (x y : list T) (b : buf).
  Notation nobuf := (fun _ : buf => False).

  Ltac okub_tac := repeat first [apply okub_bind; [|intros ?]|apply okub_aget|apply okub_lget|done].
  Lemma okub_prod_at (v : arr T) (c : arr nat) x xo k : okub (prod_at v c x xo k).
  Proof. unfold prod_at, xget. okub_tac. Qed.
  Lemma only_ub_yadd b o i (t : T) : only_ub (yadd b o i t).
  Proof. done. Qed.
  Lemma allocs_yadd b o i (t : T) : allocs nobuf (yadd b o i t).
  Proof. done. Qed.
  Lemma needs_yadd b i (t : T) : needs (b, i) (yadd b 0 i t).
  Proof. cbn. by left. Qed.

  Definition outside x y (e : elem T) : Prop := length y <= row e \/ length x <= col e.
  Lemma not_in_range_outside E x y : ~ in_range (length y) (length x) E -> exists i e, E !! i = Some e /\ outside x y e.
  Proof.
    intros Hn. unfold in_range in Hn.
    assert (Hdec : forall e : elem T, Decision (outside x y e)) by (intros e; unfold outside; apply or_dec; apply le_dec).
    destruct (Exists_dec (fun e : elem T => outside x y e) E) as [Hx|Hx].
    - apply Exists_exists in Hx as (e & He & Ho). apply elem_of_list_lookup in He as [i Hi]. eauto.
    - exfalso. apply Hn. apply Forall_forall. intros e He. destruct (decide (row e < length y)) as [H1|H1], (decide (col e < length x)) as [H2|H2]; try done;
        exfalso; apply Hx; apply Exists_exists; exists e; unfold outside; (split; [done|lia]).
  Qed.
  Lemma lget_none {A} (l : list A) i : length l <= i -> lget l i = Undef OutOfBounds.
  Proof. intros Hi. unfold lget. by rewrite lookup_ge_None_2. Qed.
  Lemma heap_of_none b y i : length y <= i -> heap_of b y !! (b, i) = None.
  Proof. intros Hi. rewrite heap_of_lookup. apply decide_False. cbn. lia. Qed.

  Lemma coo_aos_undefined E x y b : ~ in_range (length y) (length x) E ->
    always_undefined (spmv_coo_aos (full E) (length E) x 0 b 0) (heap_of b y).
  Proof.
    intros Hn. apply not_in_range_outside in Hn as (i & e & Hi & Ho).
    apply (always_undefined_doomed nobuf _ _ (b, length y + (row e - length y))); [by intros []| | | |].
    - unfold spmv_coo_aos. apply allocs_pfor. intros k. apply allocs_bind; [apply allocs_lift|]. intros ?.
      apply allocs_bind; [apply allocs_lift|]. intros ?. apply allocs_yadd.
    - unfold spmv_coo_aos. apply only_ub_pfor. intros k. apply only_ub_bind; [apply only_ub_lift, okub_aget|]. intros ?.
      apply only_ub_bind; [apply only_ub_lift, okub_lget|]. intros ?. apply only_ub_yadd.
    - apply heap_of_none. lia.
    - unfold spmv_coo_aos. apply (needs_pfor _ _ _ 0 i); [apply lookup_lt_Some in Hi; lia|].
      rewrite aget_full, (lget_some _ _ _ Hi). cbn [lift mbind prog_bind pbind]. unfold xget. rewrite Nat.add_0_l.
      destruct (decide (length x <= col e)) as [Hc|Hc]; [by rewrite lget_none|]. destruct Ho as [Ho|Ho]; [|lia].
      replace (length y + (row e - length y)) with (row e) by lia. apply needs_bind_r. intros a. apply needs_yadd.
  Qed.
  Lemma coo_soa_undefined (v : arr T) (ri ci : arr nat) E x y b : coo_rep v ri ci 0 E -> ~ in_range (length y) (length x) E ->
    always_undefined (spmv_coo v ri ci 0 (length E) x 0 b 0) (heap_of b y).
  Proof.
    intros Hrep Hn. apply not_in_range_outside in Hn as (i & e & Hi & Ho).
    apply (always_undefined_doomed nobuf _ _ (b, length y + (row e - length y))); [by intros []| | | |].
    - apply allocs_spmv_coo.
    - unfold spmv_coo. apply only_ub_pfor. intros k. apply only_ub_bind; [apply only_ub_lift, okub_aget|]. intros ?.
      apply only_ub_bind; [apply only_ub_lift, okub_prod_at|]. intros ?. apply only_ub_yadd.
    - apply heap_of_none. lia.
    - destruct (Hrep _ _ Hi) as (R1 & R2 & R3). cbn [Nat.add] in R1, R2, R3.
      unfold spmv_coo. apply (needs_pfor _ _ _ 0 i); [apply lookup_lt_Some in Hi; lia|]. rewrite Nat.add_0_l. unfold prod_at, xget.
      rewrite R1, R2, R3. cbn [lift mbind prog_bind pbind outcome_bind]. rewrite Nat.add_0_l.
      destruct (decide (length x <= col e)) as [Hc|Hc]; [by rewrite lget_none|]. destruct Ho as [Ho|Ho]; [|lia].
      replace (length y + (row e - length y)) with (row e) by lia. apply needs_bind_r. intros a. apply needs_yadd.
  Qed.

  (** ** compressed sparse rows: any arrays whose row i holds the elements R i *)
  Lemma csr_row_reg_fails (v : arr T) (ci : arr nat) st n x xo acc k : k < n ->
    okub (prod_at v ci x xo (st + k)) -> (forall t, prod_at v ci x xo (st + k) <> Ok t) ->
    exists u, csr_row_reg v ci st (st + n) x xo acc = Undef u.
  Proof.
    intros Hk Hu Hf. unfold csr_row_reg, for_range. replace (st + n - st) with n by lia.
    revert st k acc Hk Hu Hf. induction n as [|n IH]; intros st k acc Hk Hu Hf; [lia|]. cbn [for_n].
    pose proof (okub_prod_at v ci x xo st) as Ho.
    destruct (prod_at v ci x xo st) as [t|u| |] eqn:E; try done; [|by exists u].
    cbn [mbind outcome_bind]. destruct k as [|k]; [rewrite Nat.add_0_r, E in Hf; by destruct (Hf t)|].
    apply (IH (S st) k); [lia| |]; by replace (S st + k) with (st + S k) by lia.
  Qed.
  Lemma prod_at_outside (v : arr T) (ci : arr nat) x k c vk : aget ci k = Ok c -> aget v k = Ok vk -> length x <= c ->
    prod_at v ci x 0 k = Undef OutOfBounds.
  Proof. intros H1 H2 Hc. unfold prod_at, xget. rewrite H2, H1. cbn [mbind outcome_bind]. by rewrite lget_none. Qed.
  Lemma csr_row_reg_okub (v : arr T) (ci : arr nat) st en x xo acc : okub (csr_row_reg v ci st en x xo acc).
  Proof.
    unfold csr_row_reg, for_range. generalize (en - st) as n. intros n. revert st acc. induction n as [|n IH]; intros st acc; [done|].
    cbn [for_n]. apply okub_bind; [apply okub_bind; [apply okub_prod_at|done]|]. intros a. apply IH.
  Qed.
  Section csr.
    Context (rp ci : arr nat) (v : arr T) (M : nat) (R : nat -> list (elem T)) (x y : list T) (b : buf).
    Context (Hrep : csr_rep rp 0 ci v 0 M R) (i : nat) (Hi : i < M) (e : elem T) (He : e ∈ R i) (Hc : length x <= col e).
    Let l : list bool * nat := (b, length y).
    Lemma csr_bad : exists st k, aget rp i = Ok st /\ aget rp (i + 1) = Ok (st + length (R i)) /\ k < length (R i) /\ prod_at v ci x 0 (st + k) = Undef OutOfBounds.
    Proof.
      destruct (Hrep i Hi) as (st & H1 & H2 & H3). apply elem_of_list_lookup in He as [k Hk]. destruct (H3 _ _ Hk) as [H4 H5].
      exists st, k. split; [done|]. split; [done|]. split; [by eapply lookup_lt_Some|]. by eapply prod_at_outside.
    Qed.
    Lemma csr_row_allocs st en j : allocs nobuf (csr_row v ci 0 st en x 0 b 0 j).
    Proof. unfold csr_row, pfor_range. apply allocs_pfor. intros k. apply allocs_bind; [apply allocs_lift|]. intros ?. apply allocs_yadd. Qed.
    Lemma csr_row_only_ub st en j : only_ub (csr_row v ci 0 st en x 0 b 0 j).
    Proof.
      unfold csr_row, pfor_range. apply only_ub_pfor. intros k. apply only_ub_bind; [apply only_ub_lift, okub_prod_at|]. intros ?. apply only_ub_yadd.
    Qed.
    Lemma csr_row_needs st k n : k < n -> prod_at v ci x 0 (st + k) = Undef OutOfBounds -> needs l (csr_row v ci 0 st (st + n) x 0 b 0 i).
    Proof.
      intros Hk Hp. unfold csr_row, pfor_range. apply (needs_pfor _ _ _ _ (st + k)); [lia|]. cbn [Nat.add]. by rewrite Hp.
    Qed.
    Lemma csr_undefined : always_undefined (spmv_csr rp 0 ci v 0 M x 0 b 0) (heap_of b y).
    Proof.
      destruct csr_bad as (st & k & H1 & H2 & Hk & Hp).
      apply (always_undefined_doomed nobuf _ _ l); [by intros []| | |by apply heap_of_none|].
      - apply allocs_parfor. intros j. do 2 (apply allocs_bind; [apply allocs_lift|]; intros ?). apply csr_row_allocs.
      - apply only_ub_parfor. intros j. do 2 (apply only_ub_bind; [apply only_ub_lift, okub_aget|]; intros ?). apply csr_row_only_ub.
      - apply (needs_parfor _ _ _ 0 i); [lia|]. cbn [Nat.add]. rewrite H1, H2. cbn [lift mbind prog_bind pbind]. by eapply csr_row_needs.
    Qed.
    Lemma csr_serial_undefined : always_undefined (spmv_csr_serial rp 0 ci v 0 M x 0 b 0) (heap_of b y).
    Proof.
      apply (always_undefined_doomed nobuf _ _ l); [by intros []| | |by apply heap_of_none|]; unfold spmv_csr_serial.
      - apply allocs_bind; [apply allocs_lift|]. intros st. generalize 0 at 3 as j. clear Hrep Hi He. revert st. generalize M. intros M'. induction M' as [|n IH]; intros st j; [done|].
        cbn [csr_serial_loop]. apply allocs_bind; [apply allocs_lift|]. intros en. apply allocs_bind; [apply csr_row_allocs|]. intros _. apply IH.
      - apply only_ub_bind; [apply only_ub_lift, okub_aget|]. intros st. generalize 0 at 3 as j. clear Hrep Hi He. revert st. generalize M. intros M'. induction M' as [|n IH]; intros st j; [done|].
        cbn [csr_serial_loop]. apply only_ub_bind; [apply only_ub_lift, okub_aget|]. intros en. apply only_ub_bind; [apply csr_row_only_ub|]. intros _. apply IH.
      - destruct csr_bad as (st & k & H1 & H2 & Hk & Hp).
        assert (Hgen : forall n j st0, j + n = M -> j <= i -> aget rp j = Ok st0 -> needs l (csr_serial_loop rp 0 ci v 0 n j st0 x 0 b 0)).
        { induction n as [|n IH]; intros j st0 Hj Hji H0'; [lia|]. cbn [csr_serial_loop Nat.add].
          destruct (Hrep j ltac:(lia)) as (st' & H3 & H4 & _). cbn [Nat.add] in H3, H4. rewrite H4. cbn [lift mbind prog_bind pbind].
          destruct (decide (j = i)) as [->|Hne].
          - rewrite H4 in H2. injection H2 as ->. apply needs_bind_l. rewrite H1 in H0'. injection H0' as ->. by eapply csr_row_needs.
          - apply needs_bind_r. intros _. apply IH; [lia|lia|]. by replace (S j) with (j + 1) by lia. }
        destruct (Hrep 0 ltac:(lia)) as (st' & H3 & _ & _). cbn [Nat.add] in *. rewrite H3. cbn [lift mbind prog_bind pbind]. by apply Hgen; [lia|lia|].
    Qed.
    Lemma csr2_undefined : always_undefined (spmv_csr2 rp ci v M x 0 b 0) (heap_of b y).
    Proof.
      destruct csr_bad as (st & k & H1 & H2 & Hk & Hp).
      apply (always_undefined_doomed nobuf _ _ l); [by intros []| | |by apply heap_of_none|].
      - apply allocs_parfor. intros j. do 2 (apply allocs_bind; [apply allocs_lift|]; intros ?). cbn [read mbind prog_bind pbind allocs]. intros ?.
        apply allocs_bind; [apply allocs_lift|]. intros ?. done.
      - apply only_ub_parfor. intros j. do 2 (apply only_ub_bind; [apply only_ub_lift, okub_aget|]; intros ?). cbn [read mbind prog_bind pbind only_ub]. intros ?.
        apply only_ub_bind; [apply only_ub_lift, csr_row_reg_okub|]. intros ?. done.
      - apply (needs_parfor _ _ _ 0 i); [lia|]. rewrite H1, H2. cbn [lift mbind prog_bind pbind read needs]. right. intros a.
        destruct (csr_row_reg_fails v ci st (length (R i)) x 0 a k Hk) as [u Hu]; [apply okub_prod_at|by rewrite Hp|]. by rewrite Hu.
    Qed.
    Lemma csr2_serial_undefined : always_undefined (spmv_csr2_serial rp ci v M x 0 b 0) (heap_of b y).
    Proof.
      apply (always_undefined_doomed nobuf _ _ l); [by intros []| | |by apply heap_of_none|]; unfold spmv_csr2_serial.
      - apply allocs_bind; [apply allocs_lift|]. intros st. generalize 0 at 1 as j. clear Hrep Hi He. revert st. generalize M. intros M'. induction M' as [|n IH]; intros st j; [done|].
        cbn [csr2_serial_loop]. apply allocs_bind; [apply allocs_lift|]. intros en. apply allocs_bind; [|intros _; apply IH].
        cbn [read mbind prog_bind pbind allocs]. intros ?. apply allocs_bind; [apply allocs_lift|]. intros ?. done.
      - apply only_ub_bind; [apply only_ub_lift, okub_aget|]. intros st. generalize 0 at 1 as j. clear Hrep Hi He. revert st. generalize M. intros M'. induction M' as [|n IH]; intros st j; [done|].
        cbn [csr2_serial_loop]. apply only_ub_bind; [apply only_ub_lift, okub_aget|]. intros en. apply only_ub_bind; [|intros _; apply IH].
        cbn [read mbind prog_bind pbind only_ub]. intros ?. apply only_ub_bind; [apply only_ub_lift, csr_row_reg_okub|]. intros ?. done.
      - destruct csr_bad as (st & k & H1 & H2 & Hk & Hp).
        assert (Hgen : forall n j st0, j + n = M -> j <= i -> aget rp j = Ok st0 -> needs l (csr2_serial_loop rp ci v n j st0 x 0 b 0)).
        { induction n as [|n IH]; intros j st0 Hj Hji H0'; [lia|]. cbn [csr2_serial_loop].
          destruct (Hrep j ltac:(lia)) as (st' & H3 & H4 & _). cbn [Nat.add] in H3, H4. rewrite H4. cbn [lift mbind prog_bind pbind].
          destruct (decide (j = i)) as [->|Hne].
          - rewrite H4 in H2. injection H2 as ->. apply needs_bind_l. rewrite H1 in H0'. injection H0' as ->.
            cbn [mbind prog_bind pbind read needs]. right. intros a.
            destruct (csr_row_reg_fails v ci st0 (length (R i)) x 0 a k Hk) as [u Hu]; [apply okub_prod_at|by rewrite Hp|]. by rewrite Hu.
          - apply needs_bind_r. intros _. apply IH; [lia|lia|]. by replace (S j) with (j + 1) by lia. }
        destruct (Hrep 0 ltac:(lia)) as (st' & H3 & _ & _). cbn [Nat.add] in *. rewrite H3. cbn [lift mbind prog_bind pbind]. by apply Hgen; [lia|lia|].
    Qed.
  End csr.
End kernels.

(** ** the construction of CSR when a row index does not denote a row *)
Lemma for_range_undef {S : Type} (Inv : nat -> S -> Prop) lo i hi (body : nat -> S -> outcome S) st u :
  lo <= i < hi -> Inv lo st -> (forall j s, lo <= j < i -> Inv j s -> wp (body j s) (Inv (Datatypes.S j))) ->
  (forall s, Inv i s -> body i s = Undef u) -> for_range lo hi body st = Undef u.
Proof.
  intros Hi H0 Hs Hf. unfold for_range. remember (hi - lo) as n eqn:Hn. revert lo st Hi H0 Hs Hn.
  induction n as [|n IH]; intros lo st Hi H0 Hs Hn; [lia|]. cbn [for_n].
  destruct (decide (lo = i)) as [->|Hne]; [by rewrite (Hf _ H0)|].
  pose proof (Hs lo st ltac:(lia) H0) as Hw. destruct (body lo st) as [st'|u'| |] eqn:E; try done.
  cbn [mbind outcome_bind wp] in *. apply IH; [lia|done| |lia]. intros j s Hj. apply Hs. lia.
Qed.

Section shifted.
  Context {T : Type} `{Scalar T} `{Widths}.
  Implicit Types (E : list (elem T)).
  (** counters when index itW - 1 wraps around to the first cell *)
  Definition wcounters (K : list nat) (m : nat) : list nat :=
    (fun j => match j with O => cnteq K (itW - 1) | S j => cnteq K j end) <$> seq 0 (S m).
  Definition wptrs (K : list nat) (m : nat) : list nat := (fun j => cnteq K (itW - 1) + cntlt K j) <$> seq 0 (S m).
  Definition wpsums (K : list nat) (m j : nat) : list nat :=
    (fun j' => if j' <=? j then cnteq K (itW - 1) + cntlt K j' else match j' with O => cnteq K (itW - 1) | S p => cnteq K p end) <$> seq 0 (S m).
  Lemma wincr_step K k m : m + 1 < itW -> k < m \/ k = itW - 1 -> S (length K) < itW ->
    incr (full (wcounters K m)) (wadd k 1) = Ok (full (wcounters (K ++ [k]) m)).
  Proof.
    intros Hm Hk Hw. unfold incr. rewrite aget_full. unfold wcounters.
    destruct (decide (k = itW - 1)) as [->|Hne].
    - assert (wadd (itW - 1) 1 = 0) as ->.
      { unfold wadd, wrap. replace (itW - 1 + 1) with itW by lia. apply Nat.mod_same. lia. }
      rewrite (lget_some _ 0 (cnteq K (itW - 1))) by (by rewrite fmap_seq_lookup by lia).
      cbn [mbind outcome_bind]. rewrite aset_full by (rewrite fmap_length, seq_length; lia).
      f_equal. f_equal. rewrite fmap_seq_insert by lia. apply fmap_seq_ext. intros [|j] Hj.
      + cbn [Nat.eqb]. rewrite cnteq_app, cnteq_single, Nat.eqb_refl. apply wrap_small. pose proof (cnteq_le K (itW - 1)). lia.
      + cbn [Nat.eqb]. rewrite cnteq_app, cnteq_single. rewrite (proj2 (Nat.eqb_neq (itW - 1) j)) by lia. lia.
    - assert (wadd k 1 = k + 1) as -> by (unfold wadd; rewrite wrap_small; lia).
      rewrite (lget_some _ (k + 1) (cnteq K k)).
      2:{ rewrite fmap_seq_lookup by lia. by replace (k + 1) with (S k) by lia. }
      cbn [mbind outcome_bind]. rewrite aset_full by (rewrite fmap_length, seq_length; lia).
      f_equal. f_equal. rewrite fmap_seq_insert by lia. apply fmap_seq_ext. intros [|j] Hj.
      + rewrite (proj2 (Nat.eqb_neq 0 (k + 1))) by lia. rewrite cnteq_app, cnteq_single. rewrite (proj2 (Nat.eqb_neq k _)) by lia. lia.
      + rewrite cnteq_app, cnteq_single. destruct (Nat.eqb_spec (S j) (k + 1)) as [Heq|Hne'].
        * assert (k = j) as -> by lia. rewrite Nat.eqb_refl. apply wrap_small. pose proof (cnteq_le K j). lia.
        * rewrite (proj2 (Nat.eqb_neq k j)) by lia. lia.
  Qed.
  Lemma cnt_wrap_le K m : m + 1 < itW -> cnteq K (itW - 1) + cntlt K m <= length K.
  Proof.
    intros Hm. unfold cnteq, cntlt. induction K as [|k K IH]; simpl; [done|].
    destruct (Nat.eqb_spec k (itW - 1)), (Nat.ltb_spec k m); simpl; lia.
  Qed.
  Lemma wprefix_sum K m : m + 1 < itW -> length K < itW -> prefix_sum (full (wcounters K m)) m = Ok (full (wptrs K m)).
  Proof.
    intros Hm Hw. apply wp_eq. unfold prefix_sum. eapply wp_mono.
    { apply (wp_for_range (fun j r => r = full (wpsums K m j))); [lia| |].
      - f_equal. unfold wcounters, wpsums. apply fmap_seq_ext. intros [|j] Hj; simpl; [rewrite cntlt_0; lia|done].
      - intros j r Hj ->. rewrite !aget_full. unfold wpsums.
        rewrite (lget_some _ (j + 1) (cnteq K j)).
        2:{ rewrite fmap_seq_lookup by lia. replace (j + 1) with (S j) by lia. by rewrite (proj2 (Nat.leb_gt (S j) j)) by lia. }
        rewrite (lget_some _ j (cnteq K (itW - 1) + cntlt K j)).
        2:{ rewrite fmap_seq_lookup by lia. by rewrite Nat.leb_refl. }
        cbn [mbind outcome_bind]. rewrite aset_full by (rewrite fmap_length, seq_length; lia).
        cbn [wp]. f_equal. rewrite fmap_seq_insert by lia. apply fmap_seq_ext. intros i Hi.
        destruct (Nat.eqb_spec i (j + 1)) as [->|Hne].
        + rewrite (proj2 (Nat.leb_le (j + 1) (S j))) by lia. replace (j + 1) with (S j) by lia. rewrite cntlt_S.
          unfold wadd. rewrite wrap_small; [lia|]. pose proof (cnt_wrap_le K (S j) ltac:(lia)) as Hle. rewrite cntlt_S in Hle. lia.
        + destruct (Nat.leb_spec i j), (Nat.leb_spec i (S j)); try done; lia. }
    intros r ->. f_equal. unfold wpsums, wptrs. apply fmap_seq_ext. intros j Hj. by rewrite (proj2 (Nat.leb_le j m)) by lia.
  Qed.
  Definition wild_row rows (e : elem T) : Prop := row e < rows \/ row e = itW - 1.
  Lemma fill_step (conv : nat -> nat) E rows i (e : elem T) (ind : arr nat) (v : arr T) (ptr : arr nat) : rows + 1 < itW -> length E < itW -> E !! i = Some e -> wild_row rows e ->
    ind = part ((fun e : elem T => conv (col e)) <$> take i E) (length E) -> v = part (val <$> take i E) (length E) -> ptr = full (wcounters (row <$> take i E) rows) ->
    (e ← lget E i;
         ind ← aset ind i (conv (col e));
         v ← aset v i (val e);
         ptr ← incr ptr (wadd (row e) 1);
         Ok (ind, v, ptr)) =
    Ok (part ((fun e : elem T => conv (col e)) <$> take (S i) E) (length E), part (val <$> take (S i) E) (length E), full (wcounters (row <$> take (S i) E) rows)).
  Proof.
    intros Hr Hn He Hre -> -> ->. rewrite (lget_some _ _ _ He). cbn [mbind outcome_bind]. pose proof (lookup_lt_Some _ _ _ He) as Hi.
    assert (Hlt : length (take i E) = i) by (rewrite take_length; lia).
    pose proof (part_set ((fun e : elem T => conv (col e)) <$> take i E) (length E) (conv (col e))) as Hp1.
    rewrite fmap_length, Hlt in Hp1. rewrite Hp1 by lia. cbn [mbind outcome_bind].
    pose proof (part_set (val <$> take i E) (length E) (val e)) as Hp2.
    rewrite fmap_length, Hlt in Hp2. rewrite Hp2 by lia. cbn [mbind outcome_bind].
    rewrite wincr_step by (rewrite ?fmap_length; done || lia). cbn [mbind outcome_bind].
    rewrite (take_S_r _ _ _ He), !fmap_app. done.
  Qed.
  Lemma wcounters_nil m : full (wcounters [] m) = new_arr0 0 (S m).
  Proof. rewrite <- counters_nil. unfold wcounters, counters. f_equal. Qed.
  Lemma cnt_wild E rows : rows + 1 < itW -> Forall (wild_row rows) E -> cnteq (row <$> E) (itW - 1) + cntlt (row <$> E) rows = length E.
  Proof.
    intros Hr. unfold cnteq, cntlt. induction 1 as [|e E He _ IH]; [done|]. rewrite fmap_cons. cbn [List.filter length]. unfold wild_row in He.
    destruct (Nat.eqb_spec (row e) (itW - 1)), (Nat.ltb_spec (row e) rows); cbn [length]; lia.
  Qed.
  Lemma csr_build_wild (conv : nat -> nat) E rows cols : Forall (wild_row rows) E -> rows + 1 < itW -> length E < itW ->
    csr_build conv E rows cols =
      Ok (Csr rows cols (full (wptrs (row <$> E) rows)) (full ((fun e : elem T => conv (col e)) <$> E)) (full (val <$> E))).
  Proof.
    intros HE Hr Hn. apply wp_eq. unfold csr_build.
    assert (wadd rows 1 = S rows) as -> by (unfold wadd; rewrite wrap_small; lia).
    apply wp_bind. eapply wp_mono.
    { apply (wp_for_range (fun i '(ind, v, ptr) =>
        ind = part ((fun e : elem T => conv (col e)) <$> take i E) (length E) /\ v = part (val <$> take i E) (length E) /\
        ptr = full (wcounters (row <$> take i E) rows))); [lia| |].
      - rewrite <- !part_nil, wcounters_nil. done.
      - intros i [[ind v] ptr] Hi (Hi1 & Hi2 & Hi3).
        destruct (lookup_lt_is_Some_2 E i) as [e He]; [lia|].
        rewrite (fill_step conv E rows i e) by (try done; rewrite Forall_lookup in HE; by eapply HE). cbn [wp]. done. }
    intros [[ind v] ptr] (-> & -> & ->). rewrite firstn_all.
    rewrite wprefix_sum by (rewrite ?fmap_length; lia). cbn [mbind outcome_bind].
    rewrite aget_full, (lget_some _ rows (length E)).
    2:{ unfold wptrs. rewrite fmap_seq_lookup by lia. by rewrite cnt_wild. }
    cbn [mbind outcome_bind]. rewrite Nat.eqb_refl. cbn [assert_ mbind outcome_bind wp].
    f_equal.
    - pose proof (part_full ((fun e : elem T => conv (col e)) <$> E)) as Hp. rewrite fmap_length in Hp. exact Hp.
    - pose proof (part_full (val <$> E)) as Hp. rewrite fmap_length in Hp. exact Hp.
  Qed.
  (** the elements row i of the structure reads: as many as the row has, but the list is read from
      as many positions further on as there are elements without a row *)
  Definition shifted_row E i : list (elem T) :=
    slice (cnteq (row <$> E) (itW - 1) + cntlt (row <$> E) i) (cnteq (row <$> E) i) E.
  Lemma csr_build_wild_rep (conv : nat -> nat) E rows : rows + 1 < itW -> Forall (fun e => conv (col e) = col e) E ->
    csr_rep (full (wptrs (row <$> E) rows)) 0 (full ((fun e : elem T => conv (col e)) <$> E)) (full (val <$> E)) 0 rows (shifted_row E).
  Proof.
    intros Hr Hc i Hi. exists (cnteq (row <$> E) (itW - 1) + cntlt (row <$> E) i). cbn [Nat.add].
    assert (Hg : forall j, j <= rows -> aget (full (wptrs (row <$> E) rows)) j = Ok (cnteq (row <$> E) (itW - 1) + cntlt (row <$> E) j)).
    { intros j Hj. rewrite aget_full. apply lget_some. unfold wptrs. by rewrite fmap_seq_lookup by lia. }
    rewrite !Hg by lia. split; [done|].
    assert (Hle : cnteq (row <$> E) (itW - 1) + cntlt (row <$> E) i + cnteq (row <$> E) i <= length E).
    { pose proof (cnt_wrap_le (row <$> E) (S i) ltac:(lia)) as Hle. rewrite cntlt_S, fmap_length in Hle. lia. }
    split.
    - f_equal. unfold shifted_row. rewrite slice_length by lia. replace (i + 1) with (S i) by lia. rewrite cntlt_S. lia.
    - intros k e Hk.
      assert (Hkl : k < cnteq (row <$> E) i) by (apply lookup_lt_Some in Hk; unfold shifted_row in Hk; by rewrite slice_length in Hk by lia).
      unfold shifted_row in Hk. rewrite slice_lookup in Hk by done.
      rewrite !aget_full. rewrite Forall_lookup in Hc. pose proof (Hc _ _ Hk) as Hce. cbv beta in Hce.
      split; (apply lget_some; rewrite list_lookup_fmap, Hk; cbn [fmap option_fmap option_map]; by rewrite ?Hce).
  Qed.
  (** the first element whose row is neither a row nor the last index makes the loop leave row_ptr *)
  Lemma csr_build_outside (conv : nat -> nat) E rows cols : rows + 1 < itW -> length E < itW ->
    Forall (fun e => row e < itW) E -> Exists (fun e => rows <= row e /\ row e + 1 < itW) E ->
    csr_build conv E rows cols = Undef OutOfBounds.
  Proof.
    intros Hr Hn Hw Hx.
    assert (Hfirst : exists i e, E !! i = Some e /\ rows <= row e /\ row e + 1 < itW /\ Forall (wild_row rows) (take i E)).
    { clear Hn. induction E as [|e E IH]; [by apply Exists_nil in Hx|]. apply Forall_cons in Hw as [Hw1 Hw2].
      destruct (decide (rows <= row e /\ row e + 1 < itW)) as [[H1 H2]|Hno]; [exists 0, e; cbn; done|].
      apply Exists_cons in Hx as [Hx|Hx]; [done|]. destruct (IH Hw2 Hx) as (i & e' & H1 & H2 & H3 & H4).
      exists (S i), e'. split; [done|]. split; [done|]. split; [done|]. cbn [take]. constructor; [|done]. unfold wild_row. lia. }
    destruct Hfirst as (i & e & He & H1 & H2 & Hf). pose proof (lookup_lt_Some _ _ _ He) as Hi.
    unfold csr_build.
    assert (wadd rows 1 = S rows) as -> by (unfold wadd; rewrite wrap_small; lia).
    rewrite (for_range_undef (fun i '(ind, v, ptr) =>
        ind = part ((fun e : elem T => conv (col e)) <$> take i E) (length E) /\ v = part (val <$> take i E) (length E) /\
        ptr = full (wcounters (row <$> take i E) rows)) 0 i _ _ _ OutOfBounds); [done|lia| | |].
    - rewrite <- !part_nil, wcounters_nil. done.
    - intros j [[ind v] ptr] Hj (Hi1 & Hi2 & Hi3).
      destruct (lookup_lt_is_Some_2 E j) as [e' He']; [lia|].
      rewrite (fill_step conv E rows j e'); [cbn [wp]; done|done|done|done| |done|done|done].
      rewrite Forall_lookup in Hf. apply (Hf j). rewrite lookup_take by lia. done.
    - intros [[ind v] ptr] (-> & -> & ->). rewrite (lget_some _ _ _ He). cbn [mbind outcome_bind].
      assert (Hlt : length (take i E) = i) by (rewrite take_length; lia).
      pose proof (part_set ((fun e : elem T => conv (col e)) <$> take i E) (length E) (conv (col e))) as Hp1.
      rewrite fmap_length, Hlt in Hp1. rewrite Hp1 by lia. cbn [mbind outcome_bind].
      pose proof (part_set (val <$> take i E) (length E) (val e)) as Hp2.
      rewrite fmap_length, Hlt in Hp2. rewrite Hp2 by lia. cbn [mbind outcome_bind].
      assert (wadd (row e) 1 = row e + 1) as -> by (unfold wadd; rewrite wrap_small; lia).
      unfold incr. rewrite aget_full, lget_none; [done|]. unfold wcounters. rewrite fmap_length, seq_length. lia.
  Qed.
End shifted.
