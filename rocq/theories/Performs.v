(** Performs.v: proof rules for kernels that update a range of one vector
    cell by cell.  [performs p b o n π g]: the program [p] touches only the cells
    o .. o+n-1 of buffer [b] and the private buffers [π] (which it allocates and
    frees itself); run from a state where the range holds values and the private
    buffers are not live, it ends with cell o+k holding [g k] of its old value and
    everything else as before.  (No model definitions in this file.) *)
From Verif Require Export ParLib Spec.

Section performs.
  Context {T : Type}.
  Implicit Types (h : heap T) (g : nat -> T -> T) (b : buf) (π : buf -> Prop).

  Definition hupd b (o n : nat) g h : heap T :=
    map_imap (fun (l : loc) (c : option T) =>
      Some (if decide (l.1 = b /\ o <= l.2 < o + n) then g (l.2 - o) <$> c else c)) h.
  Lemma hupd_lookup b (o n : nat) g h (l : loc) :
    hupd b o n g h !! l =
    if decide (l.1 = b /\ o <= l.2 < o + n) then fmap (fmap (g (l.2 - o))) (h !! l) else h !! l.
  Proof.
    unfold hupd. rewrite map_lookup_imap. destruct (h !! l) as [c|]; simpl; by case_decide.
  Qed.
  Lemma heap_eq h h' : (forall b i, h !! (b, i) = h' !! (b, i)) -> h = h'.
  Proof. intros H. apply map_eq. intros [b i]. apply H. Qed.

  Definition foot b (o n : nat) π (l : loc) : Prop := rng b o (o + n) l \/ π l.1.
  Definition vals h b (o n : nat) : Prop := forall i, i < n -> exists v, h !! (b, o + i) = Some (Some v).
  Definition nopriv h π : Prop := forall l : loc, π l.1 -> h !! l = None.

  Definition performs (p : prog T unit) b (o n : nat) π g : Prop :=
    fp (foot b o n π) (foot b o n π) p /\
    forall h, vals h b o n -> nopriv h π -> run p h = Ok (tt, hupd b o n g h).

  Lemma vals_hupd h b o n g : vals h b o n -> vals (hupd b o n g h) b o n.
  Proof.
    intros Hv i Hi. destruct (Hv i Hi) as [v Hv']. rewrite hupd_lookup. simpl.
    rewrite decide_True by (split; [done|lia]). rewrite Hv'. simpl. eauto.
  Qed.
  Lemma nopriv_hupd h π b o n g : nopriv h π -> nopriv (hupd b o n g h) π.
  Proof.
    intros Hp l Hl. rewrite hupd_lookup. rewrite (Hp l Hl). by case_decide.
  Qed.
  Lemma hupd_id b o n h : hupd b o n (fun _ y => y) h = h.
  Proof.
    apply heap_eq. intros b' i. rewrite hupd_lookup. case_decide; [|done].
    destruct (h !! (b', i)) as [[]|]; done.
  Qed.
  Lemma hupd_hupd b o n g1 g2 h : hupd b o n g2 (hupd b o n g1 h) = hupd b o n (fun k y => g2 k (g1 k y)) h.
  Proof.
    apply heap_eq. intros b' i. rewrite !hupd_lookup. simpl. case_decide; [|done].
    destruct (h !! (b', i)) as [[]|]; done.
  Qed.
  Lemma hupd_ext b o n g g' h : (forall k y, k < n -> g k y = g' k y) -> hupd b o n g h = hupd b o n g' h.
  Proof.
    intros Hg. apply heap_eq. intros b' i. rewrite !hupd_lookup. case_decide as Hd; [|done]. simpl in *.
    destruct (h !! (b', i)) as [[v|]|]; simpl; try done. by rewrite Hg by lia.
  Qed.

  Lemma performs_ext p b o n π g g' : (forall k y, k < n -> g k y = g' k y) -> performs p b o n π g -> performs p b o n π g'.
  Proof.
    intros Hg [Hf Hr]. split; [done|]. intros h Hv Hp. rewrite Hr by done. by rewrite (hupd_ext _ _ _ g g').
  Qed.
  Lemma performs_priv p b o n π π' g : (forall x, π x -> π' x) -> performs p b o n π g -> performs p b o n π' g.
  Proof.
    intros Hπ [Hf Hr]. split.
    - eapply fp_mono; [| |exact Hf]; intros l [Hl|Hl]; [by left|right; auto|by left|right; auto].
    - intros h Hv Hp. apply Hr; [done|]. intros l Hl. apply Hp. auto.
  Qed.
  Lemma performs_ret b o n π : performs (Ret tt) b o n π (fun _ y => y).
  Proof. split; [done|]. intros h _ _. simpl. by rewrite hupd_id. Qed.
  Lemma performs_seq p q b o n π g1 g2 :
    performs p b o n π g1 -> performs q b o n π g2 ->
    performs (p ≫= fun _ => q) b o n π (fun k y => g2 k (g1 k y)).
  Proof.
    intros [Hf1 Hr1] [Hf2 Hr2]. split.
    - apply fp_bind; [done|]. by intros _.
    - intros h Hv Hp. rewrite run_bind, Hr1 by done. simpl.
      rewrite Hr2 by (by apply vals_hupd || by apply nopriv_hupd). by rewrite hupd_hupd.
  Qed.
  Lemma performs_lift {A} (m : outcome A) (a : A) (f : A -> prog T unit) b o n π g :
    m = Ok a -> performs (f a) b o n π g -> performs (lift m ≫= f) b o n π g.
  Proof. by intros ->. Qed.

  (** a smaller range inside a larger one *)
  Lemma performs_sub p b o n d m π g : d + m <= n -> performs p b (o + d) m π g ->
    performs p b o n π (fun k y => if decide (d <= k < d + m) then g (k - d) y else y).
  Proof.
    intros Hd [Hf Hr]. split.
    - eapply fp_mono; [| |exact Hf]; intros l [[Hl1 Hl2]|Hl]; try (by right); left; split; try done; lia.
    - intros h Hv Hp. rewrite Hr; [|intros i Hi|done].
      + f_equal. f_equal. apply heap_eq. intros b' i. rewrite !hupd_lookup. simpl.
        destruct (decide (b' = b /\ o + d <= i < o + d + m)) as [[-> Hi]|Hno].
        * rewrite decide_True by (split; [done|lia]).
          destruct (h !! (b, i)) as [[]|]; simpl; try done. rewrite decide_True by lia.
          by replace (i - o - d) with (i - (o + d)) by lia.
        * case_decide as Hd2; [|done]. destruct Hd2 as [-> Hi2].
          destruct (h !! (b, i)) as [[]|]; simpl; try done.
          by rewrite decide_False by (intros Hx; apply Hno; split; [done|lia]).
      + destruct (Hv (d + i)) as [v Hv']; [lia|]. rewrite Nat.add_assoc in Hv'. eauto.
  Qed.
  Lemma performs_pfor (body : nat -> prog T unit) cnt : forall lo b o n π (g : nat -> nat -> T -> T),
    (forall i, lo <= i < lo + cnt -> performs (body i) b o n π (g i)) ->
    performs (pfor cnt lo body) b o n π (fun k y => fold_left (fun y i => g i k y) (seq lo cnt) y).
  Proof.
    induction cnt as [|cnt IH]; intros lo b o n π g Hb; cbn [pfor seq].
    - apply performs_ret.
    - eapply performs_ext; [|apply performs_seq; [apply (Hb lo); lia|apply (IH (S lo) b o n π g)]].
      + done.
      + intros i Hi. apply Hb. lia.
  Qed.
  (** one cell: y[i] = f(y[i]) *)
  Lemma performs_cell (f : T -> T) b o n π i : i < n ->
    performs (v ← read (b, o + i); write (b, o + i) (f v)) b o n π (fun k y => if decide (k = i) then f y else y).
  Proof.
    intros Hi. split.
    - apply fp_bind; [apply fp_read; left; split; simpl; [done|lia]|].
      intros v. apply fp_write. left. split; simpl; [done|lia].
    - intros h Hv _. destruct (Hv i Hi) as [v Hv']. rewrite run_bind. unfold read at 1. simpl.
      rewrite Hv'. simpl. rewrite Hv'. simpl. f_equal. f_equal. apply heap_eq. intros b' j.
      rewrite upd_lookup, hupd_lookup. simpl.
      destruct (decide ((b', j) = (b, o + i))) as [Heq|Hne].
      + injection Heq as -> ->. rewrite decide_True by (split; [done|lia]).
        rewrite Hv'. simpl. by rewrite decide_True by lia.
      + case_decide as Hd; [|done]. destruct Hd as [-> Hd].
        destruct (h !! (b, j)) as [[]|]; simpl; try done.
        rewrite decide_False by (intros Hji; apply Hne; f_equal; lia). done.
  Qed.

  (** two threads on neighbouring ranges *)
  Lemma performs_Fork p q b o n1 n2 π1 π2 g :
    performs p b o n1 π1 g -> performs q b (o + n1) n2 π2 (fun k => g (n1 + k)) ->
    (forall x, π1 x -> π2 x -> False) -> ~ π1 b -> ~ π2 b ->
    performs (Fork p q (Ret tt)) b o (n1 + n2) (fun x => π1 x \/ π2 x) g.
  Proof.
    intros [Hf1 Hr1] [Hf2 Hr2] Hd Hb1 Hb2. split.
    - eapply (fp_Fork _ _ (foot b o n1 π1) (foot b o n1 π1) (foot b (o + n1) n2 π2) (foot b (o + n1) n2 π2)); try done.
      + intros l [[Hl1 Hl2]|Hl]; [left; split; [done|lia]|right; by left].
      + intros l [[Hl1 Hl2]|Hl]; [left; split; [done|lia]|right; by left].
      + intros l [[Hl1 Hl2]|Hl]; [left; split; [done|lia]|right; by right].
      + intros l [[Hl1 Hl2]|Hl]; [left; split; [done|lia]|right; by right].
      + intros l [[Hl1 Hl2]|Hl] [[Hl3 Hl4]|Hl']; [lia|by subst b|by subst b|by eapply Hd].
      + intros l [[Hl1 Hl2]|Hl] [[Hl3 Hl4]|Hl']; [lia|by subst b|by subst b|by eapply Hd].
    - intros h Hv Hp. simpl. rewrite Hr1.
      + simpl. rewrite Hr2.
        * simpl. f_equal. f_equal. apply heap_eq. intros b' i. rewrite !hupd_lookup. simpl.
          destruct (decide (b' = b /\ o + n1 <= i < o + n1 + n2)) as [[-> Hi]|Hno].
          -- rewrite decide_False by lia. rewrite decide_True by (split; [done|lia]).
             by replace (n1 + (i - (o + n1))) with (i - o) by lia.
          -- destruct (decide (b' = b /\ o <= i < o + n1)) as [[-> Hi]|Hno2].
             ++ by rewrite decide_True by (split; [done|lia]).
             ++ rewrite decide_False; [done|]. intros [-> Hi].
                destruct (decide (i < o + n1)); [apply Hno2|apply Hno]; (split; [done|lia]).
        * intros i Hi. destruct (Hv (n1 + i)) as [v Hv']; [lia|]. rewrite hupd_lookup. simpl.
          rewrite decide_False by lia. rewrite <- Nat.add_assoc. eauto.
        * intros l Hl. rewrite hupd_lookup. rewrite (Hp l) by (by right). by case_decide.
      + intros i Hi. apply Hv. lia.
      + intros l Hl. apply Hp. by left.
  Qed.
  (** a parallel loop whose iteration i owns the cells off(i) .. off(i+1)-1 *)
  Lemma performs_parfor (off : nat -> nat) (body : nat -> prog T unit) b o (π : nat -> buf -> Prop) cnt : forall lo g,
    (forall i, lo <= i < lo + cnt -> off i <= off (S i)) ->
    (forall i, lo <= i < lo + cnt ->
       performs (body i) b (o + off i) (off (S i) - off i) (π i) (fun k => g (off i - off lo + k))) ->
    (forall i j x, lo <= i < lo + cnt -> lo <= j < lo + cnt -> i <> j -> π i x -> π j x -> False) ->
    (forall i, lo <= i < lo + cnt -> ~ π i b) ->
    performs (parfor cnt lo body) b (o + off lo) (off (lo + cnt) - off lo)
             (fun x => exists i, lo <= i < lo + cnt /\ π i x) g.
  Proof.
    induction cnt as [|cnt IH]; intros lo g Hoff Hb Hd Hnb; cbn [parfor].
    - eapply performs_ext; [|apply performs_ret]. intros k y Hk. rewrite Nat.add_0_r in Hk. lia.
    - assert (Hmon : forall j, j <= cnt -> off (S lo) <= off (S lo + j)).
      { induction j as [|j IHj]; intros Hj; [by rewrite Nat.add_0_r|].
        specialize (IHj ltac:(lia)). specialize (Hoff (S lo + j) ltac:(lia)).
        replace (S (S lo + j)) with (S lo + S j) in Hoff by lia. lia. }
      pose proof (Hoff lo ltac:(lia)) as H0. pose proof (Hmon cnt ltac:(lia)) as H1.
      replace (lo + S cnt) with (S lo + cnt) by lia.
      replace (off (S lo + cnt) - off lo) with ((off (S lo) - off lo) + (off (S lo + cnt) - off (S lo))) by lia.
      eapply performs_priv; [|eapply (performs_Fork _ _ _ _ _ _ (π lo) (fun x => exists i, S lo <= i < S lo + cnt /\ π i x))].
      + intros x [Hx|(i & Hi & Hx)]; [exists lo; split; [lia|done]|exists i; split; [lia|done]].
      + eapply performs_ext; [|apply (Hb lo); lia]. intros k y Hk. cbv beta. f_equal. lia.
      + replace (o + off lo + (off (S lo) - off lo)) with (o + off (S lo)) by lia.
        apply (IH (S lo) (fun k => g (off (S lo) - off lo + k))).
        * intros i Hi. apply Hoff. lia.
        * intros i Hi.
          assert (Hge : off (S lo) <= off i).
          { replace i with (S lo + (i - S lo)) by lia. apply Hmon. lia. }
          eapply performs_ext; [|apply (Hb i); lia]. intros k y Hk. cbv beta. f_equal. lia.
        * intros i j x Hi Hj. apply Hd; lia.
        * intros i Hi. apply Hnb. lia.
      + intros x Hx (i & Hi & Hx'). eapply (Hd lo i x); try done; lia.
      + apply Hnb. lia.
      + intros (i & Hi & Hx). eapply (Hnb i); [lia|done].
  Qed.

  (** one thread works on the vector, the other on a fresh zeroed temporary which is
      added afterwards *)
  Definition below (πp : buf) : buf -> Prop := fun x => πp `prefix_of` x.
  Lemma below_self πp : below πp πp.
  Proof. exists []. by rewrite app_nil_r. Qed.
  Lemma below_snoc πp s x : below (πp ++ s) x -> below πp x.
  Proof. intros [t ->]. exists (s ++ t). by rewrite app_assoc. Qed.
  Lemma below_neq πp s t x : length s = length t -> s <> t -> below (πp ++ s) x -> below (πp ++ t) x -> False.
  Proof.
    intros Hlen Hne [u ->] [v Hv]. rewrite <- !app_assoc in Hv. apply app_inv_head in Hv.
    apply app_inj_1 in Hv as [Hst _]; [by subst|done].
  Qed.
  Lemma below_not_self πp s : s <> [] -> ~ below (πp ++ s) πp.
  Proof.
    intros Hs [t Ht]. assert (length πp = length ((πp ++ s) ++ t)) as Hl by (by rewrite <- Ht).
    rewrite !app_length in Hl. destruct s; [done|]. simpl in Hl. lia.
  Qed.

  Lemma performs_temp `{Scalar T} pL pR b o n (πp : buf) gL gR :
    performs pL b o n (below (πp ++ [false])) gL ->
    performs pR πp 0 n (below (πp ++ [true])) gR ->
    ~ below πp b ->
    performs (Fork pL (alloc πp n (Some s0) ≫= fun _ => pR)
                (pfor n 0 (fun i => t ← read (πp, i); v ← read (b, o + i); write (b, o + i) (sadd v t)) ≫= fun _ => free πp n))
             b o n (below πp) (fun k y => sadd (gL k y) (gR k s0)).
  Proof.
    intros [Hf1 Hr1] [Hf2 Hr2] Hb.
    assert (Hbne : b <> πp) by (intros ->; apply Hb, below_self).
    assert (Hb0 : ~ below (πp ++ [false]) b) by (intros Hx; by apply below_snoc in Hx).
    assert (Hb1 : ~ below (πp ++ [true]) b) by (intros Hx; by apply below_snoc in Hx).
    split.
    - eapply (fp_Fork _ _ (foot b o n (below (πp ++ [false]))) (foot b o n (below (πp ++ [false])))
                (fun l => l.1 = πp \/ below (πp ++ [true]) l.1) (fun l => l.1 = πp \/ below (πp ++ [true]) l.1)); try done.
      + intros l [Hl|Hl]; [by left|right; by eapply below_snoc].
      + intros l [Hl|Hl]; [by left|right; by eapply below_snoc].
      + intros l [Hl|Hl]; right; [rewrite Hl; apply below_self|by eapply below_snoc].
      + intros l [Hl|Hl]; right; [rewrite Hl; apply below_self|by eapply below_snoc].
      + intros [b' i] [[Hl _]|Hl] [Hl'|Hl']; simpl in *; try subst b'; try done.
        * by eapply below_not_self in Hl.
        * by eapply (below_neq πp [false] [true]).
      + intros [b' i] [Hl|Hl] [[Hl' _]|Hl']; simpl in *; try subst b'; try done.
        * by eapply below_not_self in Hl'.
        * by eapply (below_neq πp [false] [true]).
      + apply fp_bind; [split; [intros i Hi; by left|done]|]. intros _.
        eapply fp_mono; [| |exact Hf2]; intros l [[Hl _]|Hl]; auto.
      + apply fp_bind.
        * apply fp_pfor. intros i Hi. apply fp_bind; [apply fp_read; right; apply below_self|]. intros t.
          apply fp_bind; [apply fp_read; left; split; simpl; [done|lia]|]. intros v.
          apply fp_write. left. split; simpl; [done|lia].
        * intros _. split; [|done]. intros i Hi. right. apply below_self.
    - intros h Hv Hp. cbn [run]. rewrite Hr1; [|done|intros l Hl; apply Hp; by eapply below_snoc].
      cbn [mbind outcome_bind]. rewrite run_bind. unfold alloc at 1. cbn [run].
      set (h1 := hupd b o n gL h).
      assert (Hp1 : nopriv h1 (below πp)) by (by apply nopriv_hupd).
      assert (all_freeb πp n h1 = true) as ->.
      { apply all_freeb_spec. intros i Hi. apply Hp1. apply below_self. }
      cbn [mbind outcome_bind].
      set (h2 := set_cells πp n (Some (Some s0)) h1).
      rewrite Hr2.
      2:{ intros i Hi. exists s0. unfold h2. rewrite set_cells_lookup. simpl. by rewrite decide_True. }
      2:{ intros l Hl. unfold h2. rewrite set_cells_lookup. rewrite decide_False.
          - apply Hp1. by eapply below_snoc.
          - intros [Hl1 _]. rewrite Hl1 in Hl. by eapply below_not_self in Hl. }
      cbn [mbind outcome_bind]. set (h3 := hupd πp 0 n gR h2).
      assert (Hloop : rwp (pfor n 0 (fun i => t ← read (πp, i); v ← read (b, o + i); write (b, o + i) (sadd v t))) h3
                (fun _ h' => h' = hupd b o n (fun k y => sadd y (gR k s0)) h3)).
      { pose (I := fun j (h' : heap T) => h' = hupd b o j (fun k y => sadd y (gR k s0)) h3).
        assert (Hrw : rwp (pfor n 0 (fun i => t ← read (πp, i); v ← read (b, o + i); write (b, o + i) (sadd v t))) h3
                (fun _ h' => I (0 + n) h')); [|exact Hrw].
        apply rwp_pfor.
        - unfold I. apply heap_eq. intros b' i. rewrite hupd_lookup. by rewrite decide_False by (simpl; lia).
        - intros i h' Hi ->. apply rwp_bind. apply rwp_read with (gR i s0).
          { rewrite hupd_lookup, decide_False by (simpl; intros [? _]; congruence).
            unfold h3, h2. rewrite hupd_lookup, set_cells_lookup. simpl.
            rewrite !decide_True by (split; [done|lia]). simpl. by replace (i - 0) with i by lia. }
          destruct (Hv i) as [v Hv']; [lia|].
          assert (Hcell : hupd b o i (fun k y => sadd y (gR k s0)) h3 !! (b, o + i) = Some (Some (gL i v))).
          { rewrite hupd_lookup, decide_False by (simpl; lia).
            unfold h3, h2, h1. rewrite hupd_lookup, decide_False by (simpl; intros [? _]; congruence).
            rewrite set_cells_lookup, decide_False by (simpl; intros [? _]; congruence).
            rewrite hupd_lookup, decide_True by (simpl; split; [done|lia]). rewrite Hv'. simpl.
            by replace (o + i - o) with i by lia. }
          apply rwp_bind. eapply rwp_read; [exact Hcell|]. apply rwp_write; [rewrite Hcell; eauto|].
          unfold I. apply heap_eq. intros b' j. rewrite upd_lookup, !hupd_lookup. simpl.
          destruct (decide ((b', j) = (b, o + i))) as [Heq|Hne].
          + injection Heq as -> ->. rewrite decide_True by (split; [done|lia]).
            rewrite hupd_lookup in Hcell. rewrite decide_False in Hcell by (simpl; lia). rewrite Hcell. simpl.
            by replace (o + i - o) with i by lia.
          + destruct (decide (b' = b /\ o <= j < o + i)) as [[-> Hj]|Hno].
            * by rewrite decide_True by (split; [done|lia]).
            * rewrite decide_False; [done|]. intros [-> Hj]. apply Hno. split; [done|].
              assert (j <> o + i) by (intros ->; done). lia. }
      apply rwp_run in Hloop as ([] & h4 & Hrun & ->). rewrite run_bind, Hrun. cbn [mbind outcome_bind].
      unfold free. cbn [run].
      assert (all_liveb πp n (hupd b o n (fun k y => sadd y (gR k s0)) h3) = true) as ->.
      { apply all_liveb_spec. intros i Hi. rewrite hupd_lookup, decide_False by (simpl; intros [? _]; congruence).
        unfold h3, h2. rewrite hupd_lookup, set_cells_lookup. simpl. rewrite !decide_True by (split; [done|lia]). eauto. }
      f_equal. f_equal. apply heap_eq. intros b' i. rewrite set_cells_lookup. simpl.
      destruct (decide (b' = πp /\ i < n)) as [[-> Hi]|Hno].
      + rewrite hupd_lookup, decide_False by (simpl; intros [? _]; congruence).
        symmetry. apply Hp. apply below_self.
      + rewrite hupd_lookup. simpl. unfold h3, h2, h1.
        rewrite hupd_lookup. simpl. rewrite (decide_False (P := b' = πp /\ 0 <= i < 0 + n)) by (intros [? ?]; apply Hno; split; [done|lia]).
        rewrite set_cells_lookup. simpl. rewrite (decide_False (P := b' = πp /\ i < n)) by done.
        rewrite !hupd_lookup. simpl. case_decide; [|done].
        destruct (h !! (b', i)) as [[]|]; done.
  Qed.

  (** the whole-program guarantee for a kernel *)
  Lemma performs_all_schedules p b o n π g h :
    performs p b o n π g -> vals h b o n -> nopriv h π -> all_schedules p h tt (hupd b o n g h).
  Proof.
    intros [Hf Hr] Hv Hp. eapply fp_all_schedules; [|exact Hf|by apply Hr]. done.
  Qed.
End performs.

(** the heap in which buffer [b] holds the array [l] and nothing else is live *)
From Verif Require Export Sort.
Section heap_of.
  Context {T : Type}.
  Lemma heap_of_lookup (b : buf) (y : list T) (l : loc) :
    heap_of b y !! l = if decide (l.1 = b /\ l.2 < length y) then Some (y !! l.2) else None.
  Proof.
    unfold heap_of. rewrite hset_lookup. destruct l as [b' i]. simpl. rewrite Nat.sub_0_r.
    destruct (decide (b' = b /\ 0 <= i < length y)) as [[-> Hi]|Hno].
    - by rewrite decide_True by (split; [done|lia]).
    - rewrite decide_False by (intros [? ?]; apply Hno; split; [done|lia]). apply lookup_empty.
  Qed.
  Lemma heap_of_vals (b : buf) (y : list T) : vals (heap_of b y) b 0 (length y).
  Proof.
    intros i Hi. apply lookup_lt_is_Some in Hi as [v Hv]. exists v. rewrite heap_of_lookup. simpl.
    rewrite decide_True by (split; [done|by eapply lookup_lt_Some]). by rewrite Hv.
  Qed.
  Lemma heap_of_nopriv (b : buf) (y : list T) (π : buf -> Prop) : ~ π b -> nopriv (heap_of b y) π.
  Proof.
    intros Hb l Hl. rewrite heap_of_lookup. rewrite decide_False; [done|]. intros [Hl1 _]. by rewrite Hl1 in Hl.
  Qed.
  Lemma hupd_heap_of (b : buf) (y : list T) g : hupd b 0 (length y) g (heap_of b y) = heap_of b (imap g y).
  Proof.
    apply heap_eq. intros b' i. rewrite hupd_lookup, !heap_of_lookup. simpl. rewrite imap_length.
    destruct (decide (b' = b /\ i < length y)) as [[-> Hi]|Hno].
    - rewrite decide_True by (split; [done|lia]). rewrite Nat.sub_0_r. simpl. rewrite list_lookup_imap. done.
    - rewrite decide_False by (intros [? ?]; apply Hno; split; [done|lia]). done.
  Qed.
  Lemma performs_vector p (b : buf) (y : list T) (π : buf -> Prop) g :
    performs p b 0 (length y) π g -> ~ π b ->
    all_schedules p (heap_of b y) tt (heap_of b (imap g y)).
  Proof.
    intros Hp Hb. rewrite <- hupd_heap_of. eapply performs_all_schedules; [exact Hp|apply heap_of_vals|by apply heap_of_nopriv].
  Qed.
End heap_of.
