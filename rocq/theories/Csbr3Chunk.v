(** Csbr3Chunk.v: the chunked kernel of Csbr3 (include/spmv/omp/csbr.3.h:48-101) on one
    block row, and programs that can never complete.  (No model definitions in this file.) *)
From Verif Require Export Csbr3Proof.

(** no schedule brings the program to a normal end *)
Definition never_completes {V A} (p : prog V A) (h : heap V) : Prop :=
  forall a h', ~ rtc (step A) (p, h) (Ret a, h').

Section doom.
  Context {V : Type}.
  (** [p] allocates only buffers in P *)
  Fixpoint allocs {A} (P : buf -> Prop) (p : prog V A) : Prop :=
    match p with
    | Ret _ | Fail _ => True
    | Read _ k => forall v, allocs P (k v)
    | Write _ _ k => allocs P k
    | Alloc b _ _ k => P b /\ allocs P k
    | Free _ _ k => allocs P k
    | Fork p q k => allocs P p /\ allocs P q /\ allocs P k
    end.
  (** every complete execution of [p] accesses cell l *)
  Fixpoint needs {A} (l : list bool * nat) (p : prog V A) : Prop :=
    match p with
    | Ret _ => False
    | Fail _ => True
    | Read l' k => l' = l \/ forall v, needs l (k v)
    | Write l' _ k => l' = l \/ needs l k
    | Alloc _ _ _ k | Free _ _ k => needs l k
    | Fork p q k => needs l p \/ needs l q \/ needs l k
    end.
  Lemma allocs_bind {A B} (P : buf -> Prop) (p : prog V A) (f : A -> prog V B) :
    allocs P p -> (forall a, allocs P (f a)) -> allocs P (p ≫= f).
  Proof.
    unfold mbind, prog_bind. intros Hp Hf.
    induction p as [A a|A e|A l k IH|A l v k IH|A b n c k IH|A b n k IH|A p IHp q IHq k IHk]; simpl in *; try done; try naive_solver.
  Qed.
  Lemma needs_bind_l {A B} (l : list bool * nat) (p : prog V A) (f : A -> prog V B) : needs l p -> needs l (p ≫= f).
  Proof.
    unfold mbind, prog_bind.
    induction p as [A a|A e|A l' k IH|A l' v k IH|A b n c k IH|A b n k IH|A p IHp q IHq k IHk]; simpl in *; try done; naive_solver.
  Qed.
  Lemma needs_bind_r {A B} (l : list bool * nat) (p : prog V A) (f : A -> prog V B) : (forall a, needs l (f a)) -> needs l (p ≫= f).
  Proof.
    unfold mbind, prog_bind. intros Hf.
    induction p as [A a|A e|A l' k IH|A l' v k IH|A b n c k IH|A b n k IH|A p IHp q IHq k IHk]; simpl in *; try done; try naive_solver.
  Qed.
  Lemma needs_pfor (l : list bool * nat) (body : nat -> prog V unit) n : forall lo i, lo <= i < lo + n -> needs l (body i) -> needs l (pfor n lo body).
  Proof.
    induction n as [|n IH]; intros lo i Hi Hn; [lia|]. cbn [pfor].
    destruct (decide (i = lo)) as [->|]; [by apply needs_bind_l|].
    apply needs_bind_r. intros _. apply (IH _ i); [lia|done].
  Qed.
  Lemma allocs_lift {A} (P : buf -> Prop) (m : outcome A) : allocs P (lift m : prog V A).
  Proof. by destruct m. Qed.
  Lemma allocs_pfor (P : buf -> Prop) (body : nat -> prog V unit) n lo : (forall i, allocs P (body i)) -> allocs P (pfor n lo body).
  Proof. intros Hb. revert lo. induction n as [|n IH]; intros lo; [done|]. cbn [pfor]. by apply allocs_bind. Qed.
  Lemma allocs_mono {A} (P Q : buf -> Prop) (p : prog V A) : (forall b, P b -> Q b) -> allocs P p -> allocs Q p.
  Proof.
    intros HPQ. induction p as [A a|A e|A l k IH|A l v k IH|A b n c k IH|A b n k IH|A p IHp q IHq k IHk]; simpl; naive_solver.
  Qed.

  Lemma step_doom {A} (c c' : prog V A * heap V) : step A c c' -> forall (P : buf -> Prop) (l : list bool * nat),
    ~ P l.1 -> allocs P c.1 -> c.2 !! l = None ->
    allocs P c'.1 /\ c'.2 !! l = None /\ (needs l c.1 -> needs l c'.1).
  Proof.
    induction 1 as [A l' k h v Hv|A l' v k h c Hc|A b n c k h Hf|A b n k h Hl|A p q k h p' h' _ IH|A p q k h q' h' _ IH|A k h];
      intros P l HP Ha Hn; cbn [fst snd allocs needs] in *.
    - split; [done|]. split; [done|]. intros [->|Hx]; [congruence|done].
    - split; [done|]. rewrite upd_lookup. destruct (decide (l = l')) as [->|Hne]; [congruence|]. split; [done|].
      intros [->|Hx]; [done|done].
    - destruct Ha as [Hb Ha]. split; [done|]. rewrite set_cells_lookup.
      rewrite decide_False; [by split|]. intros [Heq _]. rewrite Heq in HP. done.
    - split; [done|]. rewrite set_cells_lookup. split; [by case_decide|done].
    - destruct Ha as (H1 & H2 & H3). destruct (IH P l HP H1 Hn) as (I1 & I2 & I3). split; [done|]. split; [done|]. naive_solver.
    - destruct Ha as (H1 & H2 & H3). destruct (IH P l HP H2 Hn) as (I1 & I2 & I3). split; [done|]. split; [done|]. naive_solver.
    - destruct Ha as (_ & _ & H3). split; [done|]. split; [done|]. naive_solver.
  Qed.
  Lemma doomed {A} (P : buf -> Prop) (p : prog V A) (h : heap V) (l : list bool * nat) :
    ~ P l.1 -> allocs P p -> h !! l = None -> needs l p -> never_completes p h.
  Proof.
    intros HP Ha Hn Hd a h' Hs.
    assert (Hinv : forall c c' : prog V A * heap V, rtc (step A) c c' -> allocs P c.1 /\ c.2 !! l = None /\ needs l c.1 ->
              allocs P c'.1 /\ c'.2 !! l = None /\ needs l c'.1).
    { intros c c' Hc. induction Hc as [c|c1 c2 c3 H12 _ IH]; [done|]. intros (I1 & I2 & I3). apply IH.
      destruct (step_doom _ _ H12 P l HP I1 I2) as (J1 & J2 & J3). auto. }
    apply Hinv in Hs; [|done]. destruct Hs as (_ & _ & []).
  Qed.
  Lemma all_schedules_completes {A} (p : prog V A) (h : heap V) a hf : all_schedules p h a hf -> ~ never_completes p h.
  Proof. intros Hs Hn. apply (Hn a hf). by apply all_schedules_reachable. Qed.
End doom.

Section chunk.
  Context {T : Type} `{Scalar T} `{Widths}.

  Lemma allocs_spmv_coo (P : buf -> Prop) (v : arr T) (ri ci : arr nat) s n x xo b o : allocs P (spmv_coo v ri ci s n x xo b o).
  Proof.
    unfold spmv_coo. apply allocs_pfor. intros i.
    repeat (first [apply allocs_bind; [apply allocs_lift|]; intros ?|apply allocs_bind; [done|]; intros ?]); try done.
  Qed.
  Lemma allocs_csbr3_chunk (A : csbr3 T) x chunks fuel : forall first last b o (π : buf),
    allocs (below π) (csbr3_spmv_chunk fuel A x chunks first last b o π).
  Proof.
    induction fuel as [|f IH]; intros first last b o π; [done|]. cbn [csbr3_spmv_chunk].
    destruct (wsub last first =? 1).
    - apply allocs_bind; [apply allocs_lift|]. intros s. apply allocs_bind; [apply allocs_lift|]. intros e.
      apply allocs_pfor. intros k. unfold csbr3_block.
      do 3 (apply allocs_bind; [apply allocs_lift|]; intros ?; cbv zeta). apply allocs_spmv_coo.
    - cbv zeta. cbn [allocs]. split; [|split].
      + eapply allocs_mono; [|apply IH]. intros z Hz. by eapply below_snoc.
      + apply allocs_bind; [split; [apply below_self|done]|]. intros _. eapply allocs_mono; [|apply IH]. intros z Hz. by eapply below_snoc.
      + apply allocs_bind; [|done]. apply allocs_pfor. intros i. cbn. done.
  Qed.
  (** two or more chunks: the addition at the end touches block_size cells of y *)
  Lemma csbr3_chunk_doomed (A : csbr3 T) (x : list T) (chunks : list nat) (fuel first last : nat) (b : buf) (o : nat) (π : buf) (h : heap T) (i : nat) :
    wsub last first <> 1 -> ~ below π b -> i < s3_block_size A -> h !! (b, o + i) = None ->
    never_completes (csbr3_spmv_chunk fuel A x chunks first last b o π) h.
  Proof.
    intros Hne Hb Hi Hh. apply (doomed (below π) _ _ (b, o + i)); [done|apply allocs_csbr3_chunk|done|].
    destruct fuel as [|f]; [done|]. cbn [csbr3_spmv_chunk]. rewrite (proj2 (Nat.eqb_neq _ _) Hne). cbv zeta. cbn [needs].
    right; right. apply needs_bind_l. apply (needs_pfor _ _ _ 0 i); [lia|]. cbn [mbind prog_bind]. unfold read. cbn. right. intros v. by left.
  Qed.
End chunk.

(** one block row whose bs rows all exist *)
Section full_row.
  Context {T : Type} `{Scalar T} `{Widths}.
  Context (rows cols bs : nat) (E : list (elem T)).
  Notation nbr := (ceil_nb rows bs).
  Notation nbc := (ceil_nb cols bs).
  Notation roff := (ceil_off rows bs).
  Notation coff := (ceil_off cols bs).
  Context (Hbs : 0 < bs) (Hshort : bs <= sitW) (HE : in_range rows cols E) (Hne : E <> []) (Hids : nbr * nbc < itW).
  Context (Hrows : rows + bs < itW) (Hcols : cols + bs < itW) (Hnnz : length E + 1 < itW).
  Notation E' := (bsorted roff nbr coff nbc E).
  Notation I := (bids roff nbr coff nbc E).

  Lemma csbr3_chunk_row (one : T) (SR : exact_arith T one) x b y bi chunks :
    cols <= length x -> length y = rows -> bi < nbr -> (bi + 1) * bs <= rows -> 2 * length chunks < itW ->
    tiles chunks (cntlt (brs roff nbr coff nbc E) bi) (cntlt (brs roff nbr coff nbc E) (S bi)) ->
    all_schedules (csbr3_spmv_chunk (length chunks) (csbr3_matrix rows cols bs E) x chunks 0 (length chunks - 1) b (bi * bs) (temp_name b 0))
      (heap_of b y) tt
      (heap_of b (imap (fun i yi => if decide (bi * bs <= i < (bi + 1) * bs) then sadd yi (dot E cols x i) else yi) y)).
  Proof.
    intros Hx Hy Hbi Hfull Hlen Ht.
    pose proof (ceil_off_blocking rows bs Hbs) as Hr. pose proof (ceil_off_blocking cols bs Hbs) as Hc.
    rewrite csbr3_chunk_eq. cbn [csbr3_matrix s3_block_size].
    destruct (ceil_off_lt rows bs bi Hbs Hbi) as [R1 R3].
    assert (R2 : nth (S bi) roff 0 = (bi + 1) * bs) by (rewrite ceil_off_nth by lia; lia).
    set (G := fun k r => row_acc (blocks_at roff nbr coff nbc E (nth k I 0)) x (bi * bs + r)).
    assert (HG : forall k, cntlt (brs roff nbr coff nbc E) bi <= k < cntlt (brs roff nbr coff nbc E) (S bi) ->
              block_does (csbr3_view (csbr3_matrix rows cols bs E)) x k bs (G k)).
    { intros k Hk. pose proof (brs_between _ (brs_sorted roff nbr coff nbc E) bi k ltac:(lia)) as Hbk.
      unfold brs in Hbk. rewrite list_lookup_fmap in Hbk. destruct (I !! k) as [id|] eqn:Hid; [|done]. injection Hbk as Hbk.
      unfold G. rewrite (nth_lookup_Some I k 0 id Hid).
      pose proof (csbr3_block_does rows cols bs E Hbs HE Hids Hrows Hcols Hnnz Hshort x k id Hx Hid) as Hd. unfold rsz, ro in Hd.
      rewrite Hbk, R1, R2 in Hd. by replace ((bi + 1) * bs - bi * bs) with bs in Hd by lia. }
    pose proof Ht as (Hcl & Hst & Hend & Hm).
    pose proof (performs_spmv_chunk (csbr3_view (csbr3_matrix rows cols bs E)) x chunks bs G _ _ HG
      (fun i c => tiles_range _ _ _ i c Ht) Hlen (length chunks) 0 (length chunks - 1) b (0 + bi * bs) (temp_name b 0)
      ltac:(lia) ltac:(lia) ltac:(lia) (temp_name_self b 0)) as Hp.
    apply (performs_sub _ b 0 rows (bi * bs) bs) in Hp; [|lia].
    set (M := csbr3_view (csbr3_matrix rows cols bs E)) in *. clearbody M.
    assert (Hp2 : performs (spmv_chunk (length chunks) M x chunks 0 (length chunks - 1) bs b (0 + bi * bs) (temp_name b 0)) b 0
      (length y) (below (temp_name b 0)) (fun k z => if decide (bi * bs <= k < bi * bs + bs)
          then chunk_val (length chunks) (fun k0 => G k0 (k - bi * bs)) chunks 0 (length chunks - 1) z else z)) by (rewrite Hy; exact Hp).
    clear Hp.
    pose proof (performs_vector _ b y _ _ Hp2 (temp_name_self b 0)) as Hall.
    erewrite imap_ext_lt in Hall; [exact Hall|]. intros i a Hi. cbv beta.
    destruct (decide (bi * bs <= i < bi * bs + bs)) as [Hin|Hout];
      [rewrite decide_True by lia|rewrite decide_False by lia; done].
    rewrite (chunk_val_exact one SR); [| |done|lia|lia|lia].
    - rewrite Hst, Hend. rewrite <- (row_acc_dot one SR rows E cols) by done.
      rewrite (row_acc_perm one SR E (isort (bykey col) E)) by (symmetry; apply isort_perm).
      rewrite <- (blocks_total roff nbr rows coff nbc cols E Hr Hc HE x i a) by lia. unfold row_blocks.
      assert (Hbo : block_of roff nbr i = bi).
      { eapply block_of_unique; [exact Hr|done|]. unfold in_block. rewrite R1, R2. lia. }
      rewrite Hbo, cntlt_S. unfold G. replace (bi * bs + (i - bi * bs)) with i by lia. do 2 f_equal. lia.
    - intros k z. unfold G. rewrite (row_acc_sum one SR _ x _ z), (row_acc_sum one SR _ x _ s0). f_equal.
      destruct SR as [A0 AC AA]. by rewrite A0.
  Qed.
End full_row.
