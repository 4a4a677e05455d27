(** ParLib.v: proof rules for [run] and [fp] (no model definitions except
    representation predicates). *)
From Verif Require Export Par.

Section lib.
  Context {V : Type}.
  Implicit Types h : heap V.

  (** total correctness of the sequential run *)
  Definition rwp {A} (p : prog V A) h (Q : A -> heap V -> Prop) : Prop :=
    wp (run p h) (fun r => Q r.1 r.2).

  Lemma rwp_run {A} (p : prog V A) h (Q : A -> heap V -> Prop) : rwp p h Q <-> exists a h', run p h = Ok (a, h') /\ Q a h'.
  Proof.
    unfold rwp. rewrite wp_exists. split.
    - intros ([a h'] & H1 & H2). eauto.
    - intros (a & h' & H1 & H2). by exists (a, h').
  Qed.
  Lemma rwp_ret {A} (a : A) h (Q : A -> heap V -> Prop) : Q a h -> rwp (Ret a) h Q.
  Proof. done. Qed.
  Lemma rwp_mono {A} (p : prog V A) h (P Q : A -> heap V -> Prop) :
    rwp p h P -> (forall a h', P a h' -> Q a h') -> rwp p h Q.
  Proof. intros H HPQ. eapply wp_mono; [exact H|]. intros [a h']; simpl. auto. Qed.
  Lemma rwp_bind {A B} (p : prog V A) (f : A -> prog V B) h (Q : B -> heap V -> Prop) :
    rwp p h (fun a h' => rwp (f a) h' Q) -> rwp (p ≫= f) h Q.
  Proof.
    unfold rwp. rewrite run_bind. intros H. apply wp_bind. eapply wp_mono; [exact H|].
    intros [a h']; simpl. done.
  Qed.
  Lemma rwp_lift {A} (m : outcome A) h (Q : A -> heap V -> Prop) : wp m (fun a => Q a h) -> rwp (lift m) h Q.
  Proof. unfold rwp. rewrite run_lift. destruct m; simpl; try done. Qed.
  Lemma rwp_read (l : loc) (v : V) h (Q : V -> heap V -> Prop) : h !! l = Some (Some v) -> Q v h -> rwp (read l) h Q.
  Proof. unfold rwp, read. simpl. by intros ->. Qed.
  Lemma rwp_write (l : loc) (v : V) h (Q : unit -> heap V -> Prop) : is_Some (h !! l) -> Q tt (upd (Some (Some v)) l h) -> rwp (write l v) h Q.
  Proof. unfold rwp, write. simpl. by intros [c ->]. Qed.
  Lemma rwp_Fork {A} (p q : prog V unit) (k : prog V A) h (Q : A -> heap V -> Prop) :
    rwp p h (fun _ h1 => rwp q h1 (fun _ h2 => rwp k h2 Q)) -> rwp (Fork p q k) h Q.
  Proof.
    unfold rwp. simpl. intros H. apply wp_bind. eapply wp_mono; [exact H|]. intros [? h1]; simpl.
    intros H1. apply wp_bind. eapply wp_mono; [exact H1|]. intros [? h2]; simpl. done.
  Qed.
  Lemma rwp_alloc (b : buf) (n : nat) (c : option V) h (Q : unit -> heap V -> Prop) : all_free b n h -> Q tt (set_cells b n (Some c) h) -> rwp (alloc b n c) h Q.
  Proof.
    unfold rwp, alloc. simpl. intros H HQ. apply all_freeb_spec in H. by rewrite H.
  Qed.
  Lemma rwp_free (b : buf) (n : nat) h (Q : unit -> heap V -> Prop) : all_live b n h -> Q tt (set_cells b n None h) -> rwp (free b n) h Q.
  Proof.
    unfold rwp, free. simpl. intros H HQ. apply all_liveb_spec in H. by rewrite H.
  Qed.
  Lemma rwp_pfor (I : nat -> heap V -> Prop) (n lo : nat) (body : nat -> prog V unit) h :
    I lo h ->
    (forall i h', lo <= i < lo + n -> I i h' -> rwp (body i) h' (fun _ h2 => I (S i) h2)) ->
    rwp (pfor n lo body) h (fun _ h' => I (lo + n) h').
  Proof.
    revert lo h. induction n as [|n IH]; intros lo h H0 Hs; cbn [pfor].
    - apply rwp_ret. by rewrite Nat.add_0_r.
    - apply rwp_bind. eapply rwp_mono; [apply Hs; [lia|exact H0]|].
      intros [] h' H'. replace (lo + S n) with (S lo + n) by lia. apply IH; [exact H'|].
      intros i h2 Hi. apply Hs. lia.
  Qed.
  Lemma rwp_frame {A} (p : prog V A) (R W : loc -> Prop) h (Q : A -> heap V -> Prop) :
    fp R W p -> rwp p h Q -> rwp p h (fun a h' => Q a h' /\ forall l, ~ W l -> h' !! l = h !! l).
  Proof.
    intros Hfp H. apply rwp_run in H as (a & h' & Hrun & HQ). apply rwp_run.
    exists a, h'. split; [done|]. split; [done|]. intros l Hl. by eapply run_unchanged.
  Qed.

  (** programs that neither allocate nor free keep the set of live cells *)
  Fixpoint noaf {A} (p : prog V A) : Prop :=
    match p with
    | Ret _ | Fail _ => True
    | Read _ k => forall v, noaf (k v)
    | Write _ _ k => noaf k
    | Alloc _ _ _ _ | Free _ _ _ => False
    | Fork p q k => noaf p /\ noaf q /\ noaf k
    end.
  Lemma noaf_bind {A B} (p : prog V A) (f : A -> prog V B) :
    noaf p -> (forall a, noaf (f a)) -> noaf (p ≫= f).
  Proof.
    unfold mbind, prog_bind.
    induction p as [A a|A e|A l k IH|A l v k IH|A b n c k IH|A b n k IH|A p IHp q IHq k IHk];
      intros H Hf; simpl in *; try done; auto.
    destruct H as (?&?&?). auto.
  Qed.
  Lemma noaf_lift {A} (m : outcome A) : noaf (lift m : prog V A).
  Proof. by destruct m. Qed.
  Lemma noaf_pfor (n lo : nat) (body : nat -> prog V unit) : (forall i, noaf (body i)) -> noaf (pfor n lo body).
  Proof.
    revert lo. induction n as [|n IH]; intros lo H; [done|]. cbn [pfor].
    apply noaf_bind; auto.
  Qed.
  Lemma noaf_run {A} (p : prog V A) : forall h a h',
    noaf p -> run p h = Ok (a, h') -> forall l, is_Some (h' !! l) <-> is_Some (h !! l).
  Proof.
    induction p as [A x|A e|A l0 k IH|A l0 v k IH|A b n c k IH|A b n k IH|A p IHp q IHq k IHk];
      intros h a h' Hn Hrun l; simpl in *.
    - by injection Hrun as <- <-.
    - by destruct e.
    - destruct (h !! l0) as [[v|]|]; try done. by eapply IH.
    - destruct (h !! l0) as [c|] eqn:E; try done. rewrite (IH _ _ _ Hn Hrun l).
      rewrite upd_lookup. destruct (decide (l = l0)) as [->|]; [|done].
      rewrite E. split; eauto.
    - done.
    - done.
    - destruct Hn as (Hp & Hq & Hk).
      destruct (run p h) as [[[] h1]| | |] eqn:Ep; simpl in Hrun; try done.
      destruct (run q h1) as [[[] h2]| | |] eqn:Eq; simpl in Hrun; try done.
      rewrite (IHk _ _ _ Hk Hrun l), (IHq _ _ _ Hq Eq l), (IHp _ _ _ Hp Ep l). done.
  Qed.
  Lemma rwp_frame_live {A} (p : prog V A) (R W : loc -> Prop) h (Q : A -> heap V -> Prop) :
    fp R W p -> noaf p -> rwp p h Q ->
    rwp p h (fun a h' => Q a h' /\ (forall l, ~ W l -> h' !! l = h !! l) /\
                         (forall l, is_Some (h !! l) -> is_Some (h' !! l))).
  Proof.
    intros Hfp Hn H. apply rwp_run in H as (a & h' & Hrun & HQ). apply rwp_run.
    exists a, h'. split; [done|]. split; [done|]. split.
    - intros l Hl. by eapply run_unchanged.
    - intros l Hl. by apply (noaf_run p h a h' Hn Hrun l).
  Qed.

  (** every possible result satisfies [Φ], whatever is read *)
  Fixpoint rets {A} (Φ : A -> Prop) (p : prog V A) : Prop :=
    match p with
    | Ret a => Φ a
    | Fail _ => True
    | Read _ k => forall v, rets Φ (k v)
    | Write _ _ k | Alloc _ _ _ k | Free _ _ k | Fork _ _ k => rets Φ k
    end.
  Lemma fp_bind_rets {A B} (p : prog V A) (f : A -> prog V B) (Φ : A -> Prop) : forall (R W : loc -> Prop),
    fp R W p -> rets Φ p -> (forall a, Φ a -> fp R W (f a)) -> fp R W (p ≫= f).
  Proof.
    unfold mbind, prog_bind.
    induction p as [A a|A e|A l k IH|A l v k IH|A b n c k IH|A b n k IH|A p IHp q IHq k IHk];
      intros R W H Hr Hf; simpl in *; try done; auto.
    - destruct H as [H1 H2]. split; [done|]. intros v. by apply (IH v f Φ).
    - destruct H as [H1 H2]. split; [done|]. by apply (IH f Φ).
    - destruct H as [H1 H2]. split; [done|]. by apply (IH f Φ).
    - destruct H as [H1 H2]. split; [done|]. by apply (IH f Φ).
    - destruct H as [H1 H2]. split; [done|]. by apply (IHk f Φ).
  Qed.
  Lemma rets_bind {A B} (p : prog V A) (f : A -> prog V B) (Φ : A -> Prop) (Ψ : B -> Prop) :
    rets Φ p -> (forall a, Φ a -> rets Ψ (f a)) -> rets Ψ (p ≫= f).
  Proof.
    unfold mbind, prog_bind. revert Φ.
    induction p as [A a|A e|A l k IH|A l v k IH|A b n c k IH|A b n k IH|A p IHp q IHq k IHk];
      intros Φ Hr Hf; simpl in *; try done; eauto.
  Qed.
  Lemma rets_mono {A} (p : prog V A) (Φ Ψ : A -> Prop) : rets Φ p -> (forall a, Φ a -> Ψ a) -> rets Ψ p.
  Proof.
    intros H Hi. induction p as [A a|A e|A l k IH|A l v k IH|A b n c k IH|A b n k IH|A p IHp q IHq k IHk];
      simpl in *; eauto.
  Qed.
  Lemma rets_lift {A} (m : outcome A) (Φ : A -> Prop) : (forall a, m = Ok a -> Φ a) -> rets Φ (lift m : prog V A).
  Proof. destruct m; simpl; auto. Qed.

  (** ** Arrays in the heap *)
  Definition harr h (b : buf) (o : nat) (l : list V) : Prop :=
    forall i v, l !! i = Some v -> h !! (b, o + i) = Some (Some v).
  Definition rng (b : buf) (s e : nat) (l : loc) : Prop := l.1 = b /\ s <= l.2 < e.
  Definition live h (P : loc -> Prop) : Prop := forall l, P l -> is_Some (h !! l).

  Lemma harr_lookup h (b : buf) (o : nat) (l : list V) (i : nat) : harr h b o l -> i < length l ->
    exists v, l !! i = Some v /\ h !! (b, o + i) = Some (Some v).
  Proof. intros H Hi. apply lookup_lt_is_Some in Hi as [v Hv]. eauto. Qed.
  Lemma harr_agree h h' (b : buf) (o : nat) (l : list V) :
    harr h b o l -> (forall i, o <= i < o + length l -> h' !! (b, i) = h !! (b, i)) -> harr h' b o l.
  Proof.
    intros H Hag i v Hi. rewrite Hag; [by apply H|]. apply lookup_lt_Some in Hi. lia.
  Qed.
  Lemma harr_app h (b : buf) (o : nat) (l1 l2 : list V) : harr h b o (l1 ++ l2) <-> harr h b o l1 /\ harr h b (o + length l1) l2.
  Proof.
    unfold harr. split.
    - intros H. split; intros i v Hi.
      + apply H. by apply lookup_app_l_Some.
      + rewrite <- Nat.add_assoc. apply H. rewrite lookup_app_r by lia.
        by replace (length l1 + i - length l1) with i by lia.
    - intros [H1 H2] i v Hi. apply lookup_app_Some in Hi as [Hi|[Hle Hi]]; [by apply H1|].
      specialize (H2 _ _ Hi). by replace (o + length l1 + (i - length l1)) with (o + i) in H2 by lia.
  Qed.
  Lemma harr_live h (b : buf) (o : nat) (l : list V) : harr h b o l -> live h (rng b o (o + length l)).
  Proof.
    intros H [b' i] [Hb Hi]. simpl in *. subst b'.
    destruct (harr_lookup h b o l (i - o) H) as (v & _ & Hv); [lia|].
    replace (o + (i - o)) with i in Hv by lia. rewrite Hv. eauto.
  Qed.
  Lemma harr_cons h (b : buf) (o : nat) (x : V) (l : list V) : harr h b o (x :: l) <-> h !! (b, o) = Some (Some x) /\ harr h b (S o) l.
  Proof.
    change (x :: l) with ([x] ++ l). rewrite harr_app. simpl. replace (o + 1) with (S o) by lia.
    split; intros [H1 H2]; split; try done.
    - specialize (H1 0 x eq_refl). by rewrite Nat.add_0_r in H1.
    - intros i v Hi. destruct i as [|i]; simpl in Hi; simplify_eq. by rewrite Nat.add_0_r.
  Qed.
  Lemma harr_nil h (b : buf) (o : nat) : harr h b o [].
  Proof. intros i v Hi. done. Qed.
  Lemma harr_snoc h (b : buf) (o : nat) (l : list V) (x : V) : harr h b o l -> h !! (b, o + length l) = Some (Some x) -> harr h b o (l ++ [x]).
  Proof.
    intros H1 H2. apply harr_app. split; [done|]. apply harr_cons. split; [done|apply harr_nil].
  Qed.
  (** the heap holding exactly one array *)
  Fixpoint hset (b : buf) (o : nat) (l : list V) h : heap V :=
    match l with
    | [] => h
    | v :: l' => upd (Some (Some v)) (b, o) (hset b (S o) l' h)
    end.
  Lemma hset_lookup (b : buf) (o : nat) (l : list V) h (x : loc) :
    hset b o l h !! x = if decide (x.1 = b /\ o <= x.2 < o + length l) then Some (l !! (x.2 - o)) else h !! x.
  Proof.
    revert o. induction l as [|v l IH]; intros o; simpl.
    - rewrite decide_False by lia. done.
    - rewrite upd_lookup, IH. destruct x as [b' i]; simpl.
      destruct (decide ((b', i) = (b, o))) as [Heq|Hne].
      + injection Heq as -> ->. rewrite decide_True by (split; [done|lia]).
        by rewrite Nat.sub_diag.
      + destruct (decide (b' = b /\ S o <= i < S (o + length l))) as [[-> Hi]|Hno].
        * rewrite ?decide_True by (split; [done|lia]). replace (i - o) with (S (i - S o)) by lia. done.
        * rewrite decide_False; [done|]. intros [-> Hi]. apply Hno. split; [done|].
          assert (i <> o) by (intros ->; done). lia.
  Qed.
  Lemma harr_hset (b : buf) (o : nat) (l : list V) h : harr (hset b o l h) b o l.
  Proof.
    intros i v Hi. rewrite hset_lookup. simpl. pose proof (lookup_lt_Some _ _ _ Hi).
    rewrite decide_True by (split; [done|lia]). by replace (o + i - o) with i by lia; rewrite Hi.
  Qed.
  Lemma hset_eq h h' (b : buf) (o : nat) (l : list V) :
    harr h' b o l -> (forall x, ~ rng b o (o + length l) x -> h' !! x = h !! x) -> h' = hset b o l h.
  Proof.
    intros Harr Hout. apply map_eq. intros [b' i]. rewrite hset_lookup. simpl.
    case_decide as Hd.
    - destruct Hd as [-> Hi]. destruct (harr_lookup h' b o l (i - o) Harr) as (v & Hv & Hh); [lia|].
      replace (o + (i - o)) with i in Hh by lia. by rewrite Hh, Hv.
    - apply Hout. intros [Hb Hi]. simpl in *. tauto.
  Qed.
  Lemma hset_hset (b : buf) (o : nat) (l l' : list V) h : length l = length l' -> hset b o l' (hset b o l h) = hset b o l' h.
  Proof.
    intros Hlen. apply map_eq. intros x. rewrite !hset_lookup. rewrite Hlen. by case_decide.
  Qed.
  Lemma harr_write h (b : buf) (o : nat) (l : list V) (i : nat) (v : V) : harr h b o l -> i < length l ->
    harr (upd (Some (Some v)) (b, o + i) h) b o (<[i := v]> l).
  Proof.
    intros H Hi j w Hj. rewrite upd_lookup. destruct (decide (j = i)) as [->|Hne].
    - rewrite decide_True by done. rewrite list_lookup_insert in Hj by done. by simplify_eq.
    - rewrite decide_False by (intros [=]; lia). rewrite list_lookup_insert_ne in Hj by done. auto.
  Qed.

  (** ** Footprint rules *)
  Lemma fp_read (R W : loc -> Prop) (l : loc) : R l -> fp R W (read l : prog V V).
  Proof. intros. split; [done|]. done. Qed.
  Lemma fp_write (R W : loc -> Prop) (l : loc) (v : V) : W l -> fp R W (write l v : prog V unit).
  Proof. intros. split; done. Qed.
  Lemma fp_Fork {A} (R W Rp Wp Rq Wq : loc -> Prop) (p q : prog V unit) (k : prog V A) :
    (forall l, Wp l -> Rp l) -> (forall l, Wq l -> Rq l) ->
    (forall l, Rp l -> R l) -> (forall l, Wp l -> W l) ->
    (forall l, Rq l -> R l) -> (forall l, Wq l -> W l) ->
    (forall l, Wp l -> Rq l -> False) -> (forall l, Wq l -> Rp l -> False) ->
    fp Rp Wp p -> fp Rq Wq q -> fp R W k -> fp R W (Fork p q k).
  Proof. intros. split; [|done]. exists Rp, Wp, Rq, Wq. repeat split; auto. Qed.
End lib.
