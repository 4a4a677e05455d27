(** Par.v: parallel programs over a shared heap, their interleaving semantics,
    and the theorem that programs with separated footprints have exactly one
    behaviour.

    Models the OpenMP constructs used by /repo: [#pragma omp task] ...
    [#pragma omp taskwait] is [Fork task rest; continuation], and
    [#pragma omp parallel for schedule(...)] is a [Fork] of all iterations (any
    schedule clause and any number of threads is then one of the interleavings
    of the model).  Memory is sequentially consistent; since every theorem
    below also shows the absence of data races, the usual DRF guarantee of the
    C++/OpenMP memory model makes that no restriction (trusted, see DESIGN.md).
    Only memory that some thread writes is in the heap; read-only inputs are
    ordinary values.  Buffers are named by the program instead of by malloc; an
    allocation of a buffer that is live is an error, so the naming only
    records freshness. *)
From Verif Require Export Base.

Notation buf := (list bool).
Notation loc := (list bool * nat)%type.

Inductive failure := FUndef (u : ub) | FAbort | FDiverge.
Definition failed {A} (f : failure) : outcome A :=
  match f with FUndef u => Undef u | FAbort => Abort | FDiverge => Diverge end.

Section Par.
  Context {V : Type}.
  Notation heap := (gmap loc (option V)).

  Inductive prog (A : Type) : Type :=
    | Ret (a : A)
    | Fail (f : failure)
    | Read (l : loc) (k : V -> prog A)
    | Write (l : loc) (v : V) (k : prog A)
    | Alloc (b : buf) (n : nat) (c : option V) (k : prog A)
    | Free (b : buf) (n : nat) (k : prog A)
    | Fork (p q : prog unit) (k : prog A).
  Arguments Ret {A}. Arguments Fail {A}. Arguments Read {A}. Arguments Write {A}.
  Arguments Alloc {A}. Arguments Free {A}. Arguments Fork {A}.

  Fixpoint pbind {A B} (p : prog A) (f : A -> prog B) : prog B :=
    match p with
    | Ret a => f a
    | Fail e => Fail e
    | Read l k => Read l (fun v => pbind (k v) f)
    | Write l v k => Write l v (pbind k f)
    | Alloc b n c k => Alloc b n c (pbind k f)
    | Free b n k => Free b n (pbind k f)
    | Fork p q k => Fork p q (pbind k f)
    end.
  Global Instance prog_ret : MRet prog := fun A a => Ret a.
  Global Instance prog_bind : MBind prog := fun A B f p => pbind p f.

  Definition lift {A} (m : outcome A) : prog A :=
    match m with
    | Ok a => Ret a
    | Undef u => Fail (FUndef u)
    | Abort => Fail FAbort
    | Diverge => Fail FDiverge
    end.
  Definition read (l : loc) : prog V := Read l Ret.
  Definition write (l : loc) (v : V) : prog unit := Write l v (Ret tt).
  Definition fork (p q : prog unit) : prog unit := Fork p q (Ret tt).
  Definition alloc (b : buf) (n : nat) (c : option V) : prog unit := Alloc b n c (Ret tt).
  Definition free (b : buf) (n : nat) : prog unit := Free b n (Ret tt).

  (** sequential counted loop inside a program *)
  Fixpoint pfor (n lo : nat) (body : nat -> prog unit) : prog unit :=
    match n with
    | O => Ret tt
    | S n' => body lo ≫= fun _ => pfor n' (S lo) body
    end.
  Definition pfor_range (lo hi : nat) (body : nat -> prog unit) : prog unit := pfor (hi - lo) lo body.
  (** [#pragma omp parallel for]: one thread per iteration *)
  Fixpoint parfor (n lo : nat) (body : nat -> prog unit) : prog unit :=
    match n with
    | O => Ret tt
    | S n' => Fork (body lo) (parfor n' (S lo) body) (Ret tt)
    end.

  (** ** Heap operations *)
  Definition upd (c : option (option V)) (l : loc) (h : heap) : heap := partial_alter (fun _ => c) l h.
  Fixpoint set_cells (b : buf) (n : nat) (c : option (option V)) (h : heap) : heap :=
    match n with
    | O => h
    | S n' => upd c (b, n') (set_cells b n' c h)
    end.
  Definition all_free (b : buf) (n : nat) (h : heap) : Prop := forall i, i < n -> h !! (b, i) = None.
  Definition all_live (b : buf) (n : nat) (h : heap) : Prop := forall i, i < n -> is_Some (h !! (b, i)).
  Fixpoint all_freeb (b : buf) (n : nat) (h : heap) : bool :=
    match n with
    | O => true
    | S n' => match h !! (b, n') with None => all_freeb b n' h | _ => false end
    end.
  Fixpoint all_liveb (b : buf) (n : nat) (h : heap) : bool :=
    match n with
    | O => true
    | S n' => match h !! (b, n') with None => false | _ => all_liveb b n' h end
    end.
  Lemma all_freeb_spec b n h : all_freeb b n h = true <-> all_free b n h.
  Proof.
    induction n as [|n IH]; simpl.
    - split; [intros _ i Hi; lia|done].
    - unfold all_free in *. destruct (h !! (b, n)) as [c|] eqn:E.
      + split; [done|]. intros H. rewrite H in E by lia. done.
      + rewrite IH. split.
        * intros H i Hi. destruct (decide (i = n)) as [->|]; [done|]. apply H; lia.
        * intros H i Hi. apply H; lia.
  Qed.
  Lemma all_liveb_spec b n h : all_liveb b n h = true <-> all_live b n h.
  Proof.
    induction n as [|n IH]; simpl.
    - split; [intros _ i Hi; lia|done].
    - unfold all_live in *. destruct (h !! (b, n)) as [c|] eqn:E.
      + rewrite IH. split.
        * intros H i Hi. destruct (decide (i = n)) as [->|]; [rewrite E; eauto|]. apply H; lia.
        * intros H i Hi. apply H; lia.
      + split; [done|]. intros H. destruct (H n ltac:(lia)) as [c Hc]. congruence.
  Qed.

  Lemma upd_lookup c l h l' : upd c l h !! l' = if decide (l' = l) then c else h !! l'.
  Proof.
    unfold upd. destruct (decide (l' = l)) as [->|Hne].
    - by rewrite lookup_partial_alter.
    - by rewrite lookup_partial_alter_ne.
  Qed.
  Lemma set_cells_lookup b n c h l :
    set_cells b n c h !! l = if decide (l.1 = b /\ l.2 < n) then c else h !! l.
  Proof.
    induction n as [|n IH]; simpl.
    - rewrite decide_False by lia. done.
    - rewrite upd_lookup, IH. destruct l as [b' i]; simpl.
      destruct (decide ((b', i) = (b, n))) as [Heq|Hne].
      + injection Heq as -> ->. rewrite decide_True by (split; [done|lia]). done.
      + destruct (decide (b' = b /\ i < n)) as [[-> Hi]|Hno].
        * rewrite decide_True by (split; [done|lia]). done.
        * rewrite decide_False; [done|]. intros [-> Hi]. apply Hno. split; [done|].
          assert (i <> n) by (intros ->; done). lia.
  Qed.

  (** ** Sequential execution (left thread of a fork first) *)
  Fixpoint run {A} (p : prog A) (h : heap) : outcome (A * heap) :=
    match p with
    | Ret a => Ok (a, h)
    | Fail f => failed f
    | Read l k =>
        match h !! l with
        | None => Undef OutOfBounds
        | Some None => Undef Uninit
        | Some (Some v) => run (k v) h
        end
    | Write l v k =>
        match h !! l with
        | None => Undef OutOfBounds
        | Some _ => run k (upd (Some (Some v)) l h)
        end
    | Alloc b n c k => if all_freeb b n h then run k (set_cells b n (Some c) h) else Undef BadFree
    | Free b n k => if all_liveb b n h then run k (set_cells b n None h) else Undef BadFree
    | Fork p q k => '(_, h1) ← run p h; '(_, h2) ← run q h1; run k h2
    end.

  (** ** Interleaving semantics: one memory access of some thread per step *)
  Inductive step (A : Type) : prog A * heap -> prog A * heap -> Prop :=
    | S_read l (k : V -> prog A) h v : h !! l = Some (Some v) -> step A (Read l k, h) (k v, h)
    | S_write l v (k : prog A) h c : h !! l = Some c -> step A (Write l v k, h) (k, upd (Some (Some v)) l h)
    | S_alloc b n c (k : prog A) h : all_free b n h -> step A (Alloc b n c k, h) (k, set_cells b n (Some c) h)
    | S_free b n (k : prog A) h : all_live b n h -> step A (Free b n k, h) (k, set_cells b n None h)
    | S_left p q (k : prog A) h p' h' : step unit (p, h) (p', h') -> step A (Fork p q k, h) (Fork p' q k, h')
    | S_right p q (k : prog A) h q' h' : step unit (q, h) (q', h') -> step A (Fork p q k, h) (Fork p q' k, h')
    | S_join (k : prog A) h : step A (Fork (Ret tt) (Ret tt) k, h) (k, h).
  Arguments step {A}.
  Arguments S_read {A}. Arguments S_write {A}. Arguments S_alloc {A}. Arguments S_free {A}.
  Arguments S_left {A}. Arguments S_right {A}. Arguments S_join {A}.

  (** some thread is about to do something undefined (or abort) *)
  Fixpoint faults {A} (p : prog A) (h : heap) : Prop :=
    match p with
    | Ret _ => False
    | Fail _ => True
    | Read l _ => forall v, h !! l <> Some (Some v)
    | Write l _ _ => h !! l = None
    | Alloc b n _ _ => ~ all_free b n h
    | Free b n _ => ~ all_live b n h
    | Fork p q _ => faults p h \/ faults q h
    end.

  (** [next p l w]: some thread's next access is to [l], and is a write if [w] *)
  Fixpoint next {A} (p : prog A) (l : loc) (w : bool) : Prop :=
    match p with
    | Ret _ | Fail _ => False
    | Read l' _ => l = l' /\ w = false
    | Write l' _ _ => l = l' /\ w = true
    | Alloc b n _ _ | Free b n _ => l.1 = b /\ l.2 < n /\ w = true
    | Fork p q _ => next p l w \/ next q l w
    end.
  (** a data race: two threads are about to access one location, one of them writing *)
  Fixpoint race {A} (p : prog A) : Prop :=
    match p with
    | Fork p q _ =>
        race p \/ race q \/
        exists l w1 w2, next p l w1 /\ next q l w2 /\ (w1 = true \/ w2 = true)
    | _ => False
    end.

  (** The whole-program guarantee: on every schedule the program ends (no
      infinite execution), nothing undefined happens, there is no data race, and
      when nothing can step any more the result is [a] with heap [hf]. *)
  Definition all_schedules {A} (p : prog A) (h : heap) (a : A) (hf : heap) : Prop :=
    Acc (fun c' c => step c c') (p, h) /\
    forall p' h', rtc step (p, h) (p', h') ->
      ~ faults p' h' /\ ~ race p' /\
      ((exists c, step (p', h') c) \/ (p' = Ret a /\ h' = hf)).

  (** ** Footprints *)
  Fixpoint fp {A} (R W : loc -> Prop) (p : prog A) : Prop :=
    match p with
    | Ret _ | Fail _ => True
    | Read l k => R l /\ forall v, fp R W (k v)
    | Write l _ k => W l /\ fp R W k
    | Alloc b n _ k | Free b n k => (forall i, i < n -> W (b, i)) /\ fp R W k
    | Fork p q k =>
        (exists Rp Wp Rq Wq : loc -> Prop,
           (forall l, Wp l -> Rp l) /\ (forall l, Wq l -> Rq l) /\
           (forall l, Rp l -> R l) /\ (forall l, Wp l -> W l) /\
           (forall l, Rq l -> R l) /\ (forall l, Wq l -> W l) /\
           (forall l, Wp l -> Rq l -> False) /\ (forall l, Wq l -> Rp l -> False) /\
           fp Rp Wp p /\ fp Rq Wq q) /\
        fp R W k
    end.

  Lemma fp_mono {A} (p : prog A) : forall (R W R' W' : loc -> Prop),
    (forall l, R l -> R' l) -> (forall l, W l -> W' l) -> fp R W p -> fp R' W' p.
  Proof.
    induction p as [A a|A f|A l k IH|A l v k IH|A b n c k IH|A b n k IH|A p IHp q IHq k IHk];
      intros R W R' W' HR HW H; simpl in *; try done.
    - destruct H as [H1 H2]. split; [by apply HR|]. intros v. by eapply IH.
    - destruct H as [H1 H2]. split; [by apply HW|]. by eapply IH.
    - destruct H as [H1 H2]. split; [intros i Hi; by apply HW, H1|]. by eapply IH.
    - destruct H as [H1 H2]. split; [intros i Hi; by apply HW, H1|]. by eapply IH.
    - destruct H as [(Rp & Wp & Rq & Wq & ?&?&?&?&?&?&?&?&?&?) Hk]. split; [|by eapply IHk].
      exists Rp, Wp, Rq, Wq. repeat split; eauto.
  Qed.

  Lemma fp_bind {A B} (p : prog A) (f : A -> prog B) : forall (R W : loc -> Prop),
    fp R W p -> (forall a, fp R W (f a)) -> fp R W (p ≫= f).
  Proof.
    unfold mbind, prog_bind.
    induction p as [A a|A e|A l k IH|A l v k IH|A b n c k IH|A b n k IH|A p IHp q IHq k IHk];
      intros R W H Hf; simpl in *; try done.
    - destruct H as [H1 H2]. split; [done|]. intros v. by apply IH.
    - destruct H as [H1 H2]. split; [done|]. by apply IH.
    - destruct H as [H1 H2]. split; [done|]. by apply IH.
    - destruct H as [H1 H2]. split; [done|]. by apply IH.
    - destruct H as [H1 H2]. split; [done|]. by apply IHk.
  Qed.
  Lemma fp_lift {A} (m : outcome A) R W : fp R W (lift m).
  Proof. by destruct m. Qed.
  Lemma fp_pfor n lo (body : nat -> prog unit) R W :
    (forall i, lo <= i < lo + n -> fp R W (body i)) -> fp R W (pfor n lo body).
  Proof.
    revert lo. induction n as [|n IH]; intros lo H; [done|]. cbn [pfor].
    apply fp_bind; [apply H; lia|]. intros _. apply IH. intros i Hi. apply H. lia.
  Qed.

  Lemma run_bind {A B} (p : prog A) (f : A -> prog B) : forall h,
    run (p ≫= f) h = '(a, h') ← run p h; run (f a) h'.
  Proof.
    unfold mbind at 1, prog_bind.
    induction p as [A a|A e|A l k IH|A l v k IH|A b n c k IH|A b n k IH|A p IHp q IHq k IHk];
      intros h; simpl; try done.
    - by destruct e.
    - destruct (h !! l) as [[v|]|]; simpl; try done.
    - destruct (h !! l) as [c|]; simpl; try done.
    - destruct (all_freeb b n h); simpl; try done.
    - destruct (all_liveb b n h); simpl; try done.
    - destruct (run p h) as [[[] h1]| | |]; simpl; try done.
      destruct (run q h1) as [[[] h2]| | |]; simpl; try done.
  Qed.
  Lemma run_lift {A} (m : outcome A) h : run (lift m) h = (a ← m; Ok (a, h)).
  Proof. by destruct m. Qed.

  Lemma upd_comm c1 c2 l1 l2 h : l1 <> l2 -> upd c1 l1 (upd c2 l2 h) = upd c2 l2 (upd c1 l1 h).
  Proof. intros. unfold upd. by apply partial_alter_commute. Qed.
  Lemma set_cells_upd b n c c' l h :
    (forall i, i < n -> l <> (b, i)) ->
    set_cells b n c (upd c' l h) = upd c' l (set_cells b n c h).
  Proof.
    intros H. induction n as [|n IH]; simpl; [done|].
    rewrite IH by (intros; apply H; lia). apply upd_comm. intros Heq. apply (H n); [lia|]. done.
  Qed.

  Lemma frame_upd {A} (p : prog A) : forall (R W : loc -> Prop) h a h' c l,
    (forall x, W x -> R x) -> fp R W p -> ~ R l ->
    run p h = Ok (a, h') -> run p (upd c l h) = Ok (a, upd c l h').
  Proof.
    induction p as [A x|A e|A l0 k IH|A l0 v k IH|A b n c0 k IH|A b n k IH|A p IHp q IHq k IHk];
      intros R W h a h' c l HWR Hfp Hl Hrun; simpl in *.
    - by injection Hrun as <- <-.
    - by destruct e.
    - destruct Hfp as [HR Hk]. rewrite upd_lookup, decide_False by (intros ->; done).
      destruct (h !! l0) as [[v|]|]; try done. eapply (IH _ R W) || (eapply (IH R W)); eauto.
    - destruct Hfp as [HW Hk]. assert (l <> l0) by (intros ->; auto).
      rewrite upd_lookup, decide_False by done.
      destruct (h !! l0) as [c1|]; try done. rewrite upd_comm by done. eapply (IH _ R W) || (eapply (IH R W)); eauto.
    - destruct Hfp as [HW Hk].
      assert (Hne : forall i, i < n -> l <> (b, i)) by (intros i Hi ->; eauto).
      destruct (all_freeb b n h) eqn:E; [|done].
      assert (all_freeb b n (upd c l h) = true) as ->.
      { apply all_freeb_spec. apply all_freeb_spec in E. intros i Hi.
        rewrite upd_lookup, decide_False by (intros Heq; by apply (Hne i)). by apply E. }
      rewrite set_cells_upd by done. eapply (IH _ R W) || (eapply (IH R W)); eauto.
    - destruct Hfp as [HW Hk].
      assert (Hne : forall i, i < n -> l <> (b, i)) by (intros i Hi ->; eauto).
      destruct (all_liveb b n h) eqn:E; [|done].
      assert (all_liveb b n (upd c l h) = true) as ->.
      { apply all_liveb_spec. apply all_liveb_spec in E. intros i Hi.
        rewrite upd_lookup, decide_False by (intros Heq; by apply (Hne i)). by apply E. }
      rewrite set_cells_upd by done. eapply (IH _ R W) || (eapply (IH R W)); eauto.
    - destruct Hfp as [(Rp & Wp & Rq & Wq & ?&?&?&?&?&?&?&?&Hp&Hq) Hk].
      destruct (run p h) as [[[] h1]| | |] eqn:Ep; simpl in Hrun; try done.
      destruct (run q h1) as [[[] h2]| | |] eqn:Eq; simpl in Hrun; try done.
      rewrite (IHp Rp Wp h tt h1 c l) by (eauto). simpl.
      rewrite (IHq Rq Wq h1 tt h2 c l) by (eauto). simpl.
      eapply (IHk R W); eauto.
  Qed.

  Lemma frame_set_cells {A} (p : prog A) (R W : loc -> Prop) h a h' b n c :
    (forall x, W x -> R x) -> fp R W p -> (forall i, i < n -> ~ R (b, i)) ->
    run p h = Ok (a, h') -> run p (set_cells b n c h) = Ok (a, set_cells b n c h').
  Proof.
    intros HWR Hfp HR Hrun. induction n as [|n IH]; simpl; [done|].
    eapply frame_upd; eauto.
  Qed.

  Lemma run_unchanged {A} (p : prog A) : forall (R W : loc -> Prop) h a h' l,
    fp R W p -> ~ W l -> run p h = Ok (a, h') -> h' !! l = h !! l.
  Proof.
    induction p as [A x|A e|A l0 k IH|A l0 v k IH|A b n c0 k IH|A b n k IH|A p IHp q IHq k IHk];
      intros R W h a h' l Hfp Hl Hrun; simpl in *.
    - by injection Hrun as <- <-.
    - by destruct e.
    - destruct Hfp as [HR Hk]. destruct (h !! l0) as [[v|]|]; try done. by eapply IH.
    - destruct Hfp as [HW Hk]. destruct (h !! l0) as [c1|]; try done.
      rewrite (IH R W _ a h' l Hk Hl Hrun). rewrite upd_lookup, decide_False; [done|]. by intros ->.
    - destruct Hfp as [HW Hk]. destruct (all_freeb b n h); [|done].
      rewrite (IH R W _ a h' l Hk Hl Hrun). rewrite set_cells_lookup, decide_False; [done|].
      destruct l as [b' i]; simpl; intros [-> Hi]. by apply Hl, HW.
    - destruct Hfp as [HW Hk]. destruct (all_liveb b n h); [|done].
      rewrite (IH R W _ a h' l Hk Hl Hrun). rewrite set_cells_lookup, decide_False; [done|].
      destruct l as [b' i]; simpl; intros [-> Hi]. by apply Hl, HW.
    - destruct Hfp as [(Rp & Wp & Rq & Wq & ?&?&?&?&?&?&?&?&Hp&Hq) Hk].
      destruct (run p h) as [[[] h1]| | |] eqn:Ep; simpl in Hrun; try done.
      destruct (run q h1) as [[[] h2]| | |] eqn:Eq; simpl in Hrun; try done.
      rewrite (IHk R W _ a h' l Hk Hl Hrun).
      rewrite (IHq Rq Wq h1 tt h2 l) by eauto.
      by rewrite (IHp Rp Wp h tt h1 l) by eauto.
  Qed.

  (** ** Steps of one thread commute with the other thread's whole run *)
  Lemma step_commute {A} (q : prog A) :
    forall h q' h', step (q, h) (q', h') ->
    forall (p : prog unit) (Rp Wp Rq Wq : loc -> Prop) h1,
      (forall l, Wp l -> Rp l) -> (forall l, Wq l -> Rq l) ->
      (forall l, Wp l -> Rq l -> False) -> (forall l, Wq l -> Rp l -> False) ->
      fp Rp Wp p -> fp Rq Wq q -> run p h = Ok (tt, h1) ->
      exists h1', step (q, h1) (q', h1') /\ run p h' = Ok (tt, h1').
  Proof.
    induction q as [A x|A e|A l k IH|A l v k IH|A b n c k IH|A b n k IH|A p0 IHp q0 IHq k IHk];
      intros h q' h' Hstep p Rp Wp Rq Wq h1 HWp HWq Hd1 Hd2 Hp Hq Hrun;
      simpl in Hq; inversion Hstep; subst.
    - exists h1. split; [|done]. constructor. destruct Hq as [HR _].
      rewrite (run_unchanged p Rp Wp h' tt h1 l); eauto.
    - destruct Hq as [HW _]. exists (upd (Some (Some v)) l h1). split.
      + econstructor. rewrite (run_unchanged p Rp Wp h tt h1 l); eauto.
      + apply (frame_upd p Rp Wp); eauto.
    - destruct Hq as [HW _]. exists (set_cells b n (Some c) h1). split.
      + constructor. intros i Hi. rewrite (run_unchanged p Rp Wp h tt h1 (b, i)); eauto.
      + apply (frame_set_cells p Rp Wp); eauto.
    - destruct Hq as [HW _]. exists (set_cells b n None h1). split.
      + constructor. intros i Hi. rewrite (run_unchanged p Rp Wp h tt h1 (b, i)); eauto.
      + apply (frame_set_cells p Rp Wp); eauto.
    - destruct Hq as [(R1 & W1 & R2 & W2 & ?&?&?&?&?&?&?&?&H1&H2) Hk].
      match goal with H : step _ _ |- _ => destruct (IHp _ _ _ H p Rp Wp R1 W1 h1) as (h1' & Hs1 & Hr1); eauto end.
      exists h1'. split; [by constructor|done].
    - destruct Hq as [(R1 & W1 & R2 & W2 & ?&?&?&?&?&?&?&?&H1&H2) Hk].
      match goal with H : step _ _ |- _ => destruct (IHq _ _ _ H p Rp Wp R2 W2 h1) as (h1' & Hs1 & Hr1); eauto end.
      exists h1'. split; [by constructor|done].
    - exists h1. split; [constructor|done].
  Qed.

  Lemma step_fp {A} (p : prog A) : forall h p' h',
    step (p, h) (p', h') -> forall (R W : loc -> Prop), fp R W p -> fp R W p'.
  Proof.
    induction p as [A x|A e|A l k IH|A l v k IH|A b n c k IH|A b n k IH|A p0 IHp q0 IHq k IHk];
      intros h p' h' Hstep R W Hfp; simpl in Hfp; inversion Hstep; subst; try by destruct Hfp; auto.
    - destruct Hfp as [(Rp & Wp & Rq & Wq & ?&?&?&?&?&?&?&?&Hp&Hq) Hk].
      split; [|done]. exists Rp, Wp, Rq, Wq. repeat split; auto. by eapply IHp.
    - destruct Hfp as [(Rp & Wp & Rq & Wq & ?&?&?&?&?&?&?&?&Hp&Hq) Hk].
      split; [|done]. exists Rp, Wp, Rq, Wq. repeat split; auto. by eapply IHq.
  Qed.

  Lemma step_run {A} (p : prog A) : forall h p' h',
    step (p, h) (p', h') -> forall (R W : loc -> Prop) a hf,
      fp R W p -> run p h = Ok (a, hf) -> run p' h' = Ok (a, hf).
  Proof.
    induction p as [A x|A e|A l k IH|A l v k IH|A b n c k IH|A b n k IH|A p0 IHp q0 IHq k IHk];
      intros h p' h' Hstep R W a hf Hfp Hrun; simpl in Hfp, Hrun; inversion Hstep; subst;
      repeat match goal with
      | H : ?x = Some _, H' : context [match ?x with _ => _ end] |- _ => rewrite H in H'
      end; try done.
    - match goal with H : all_free _ _ _ |- _ => apply all_freeb_spec in H; by rewrite H in Hrun end.
    - match goal with H : all_live _ _ _ |- _ => apply all_liveb_spec in H; by rewrite H in Hrun end.
    - destruct Hfp as [(Rp & Wp & Rq & Wq & ?&?&?&?&?&?&?&?&Hp&Hq) Hk].
      destruct (run p0 h) as [[[] h1]| | |] eqn:Ep; simpl in Hrun; try done.
      simpl. match goal with H : step _ _ |- _ => rewrite (IHp _ _ _ H Rp Wp tt h1 Hp Ep) end. done.
    - destruct Hfp as [(Rp & Wp & Rq & Wq & ?&?&?&?&?&?&?&?&Hp&Hq) Hk].
      destruct (run p0 h) as [[[] h1]| | |] eqn:Ep; simpl in Hrun; try done.
      destruct (run q0 h1) as [[[] h2]| | |] eqn:Eq; simpl in Hrun; try done.
      match goal with H : step _ _ |- _ =>
        destruct (step_commute q0 h _ h' H p0 Rp Wp Rq Wq h1) as (h1' & Hs1 & Hr1); auto end.
      simpl. rewrite Hr1. simpl. rewrite (IHq _ _ _ Hs1 Rq Wq tt h2 Hq Eq). done.
  Qed.

  Lemma faults_agree {A} (p : prog A) : forall (R W : loc -> Prop) h h1,
    (forall l, W l -> R l) -> fp R W p -> (forall l, R l -> h1 !! l = h !! l) ->
    faults p h -> faults p h1.
  Proof.
    induction p as [A x|A e|A l k IH|A l v k IH|A b n c k IH|A b n k IH|A p0 IHp q0 IHq k IHk];
      intros R W h h1 HWR Hfp Hag Hf; simpl in *; try done.
    - destruct Hfp as [HR _]. by rewrite Hag.
    - destruct Hfp as [HW _]. rewrite Hag; auto.
    - destruct Hfp as [HW _]. intros Hx. apply Hf. intros i Hi. rewrite <- Hag; auto.
    - destruct Hfp as [HW _]. intros Hx. apply Hf. intros i Hi. rewrite <- Hag; auto.
    - destruct Hfp as [(Rp & Wp & Rq & Wq & ?&?&?&?&?&?&?&?&Hp&Hq) Hk].
      destruct Hf as [Hf|Hf]; [left; apply (IHp Rp Wp h)|right; apply (IHq Rq Wq h)]; eauto.
  Qed.

  Lemma run_no_fault {A} (p : prog A) : forall (R W : loc -> Prop) h a hf,
    (forall l, W l -> R l) -> fp R W p -> run p h = Ok (a, hf) -> ~ faults p h.
  Proof.
    induction p as [A x|A e|A l k IH|A l v k IH|A b n c k IH|A b n k IH|A p0 IHp q0 IHq k IHk];
      intros R W h a hf HWR Hfp Hrun Hf; simpl in *; try done.
    - by destruct e.
    - destruct (h !! l) as [[v|]|]; try done. by apply (Hf v).
    - by rewrite Hf in Hrun.
    - destruct (all_freeb b n h) eqn:E; [|done]. by apply Hf, all_freeb_spec.
    - destruct (all_liveb b n h) eqn:E; [|done]. by apply Hf, all_liveb_spec.
    - destruct Hfp as [(Rp & Wp & Rq & Wq & ?&?&?&?&?&?&?&?&Hp&Hq) Hk].
      destruct (run p0 h) as [[[] h1]| | |] eqn:Ep; simpl in Hrun; try done.
      destruct (run q0 h1) as [[[] h2]| | |] eqn:Eq; simpl in Hrun; try done.
      destruct Hf as [Hf|Hf].
      + eapply (IHp Rp Wp); eauto.
      + eapply (IHq Rq Wq h1); eauto. eapply (faults_agree q0 Rq Wq h); eauto.
        intros l Hl. eapply (run_unchanged p0 Rp Wp); eauto.
  Qed.

  Lemma run_progress {A} (p : prog A) : forall (R W : loc -> Prop) h a hf,
    (forall l, W l -> R l) -> fp R W p -> run p h = Ok (a, hf) ->
    (exists c, step (p, h) c) \/ (p = Ret a /\ h = hf).
  Proof.
    induction p as [A x|A e|A l k IH|A l v k IH|A b n c k IH|A b n k IH|A p0 IHp q0 IHq k IHk];
      intros R W h a hf HWR Hfp Hrun; simpl in *.
    - right. by injection Hrun as <- <-.
    - by destruct e.
    - left. destruct (h !! l) as [[v|]|] eqn:E; try done. eexists. by constructor.
    - left. destruct (h !! l) as [c|] eqn:E; try done. eexists. by econstructor.
    - left. destruct (all_freeb b n h) eqn:E; [|done]. eexists. by constructor; apply all_freeb_spec.
    - left. destruct (all_liveb b n h) eqn:E; [|done]. eexists. by constructor; apply all_liveb_spec.
    - left. destruct Hfp as [(Rp & Wp & Rq & Wq & ?&?&?&?&?&?&?&?&Hp&Hq) Hk].
      destruct (run p0 h) as [[[] h1]| | |] eqn:Ep; simpl in Hrun; try done.
      destruct (run q0 h1) as [[[] h2]| | |] eqn:Eq; simpl in Hrun; try done.
      destruct (IHp Rp Wp h tt h1) as [[[p' h'] Hs]|[-> ->]]; auto.
      { eexists. by apply S_left. }
      simpl in Ep. 
      destruct (IHq Rq Wq h1 tt h2) as [[[q' h'] Hs]|[-> ->]]; auto.
      { eexists. by apply S_right. }
      eexists. by constructor.
  Qed.

  Lemma fp_next {A} (p : prog A) : forall (R W : loc -> Prop) l w,
    (forall l, W l -> R l) -> fp R W p -> next p l w -> R l /\ (w = true -> W l).
  Proof.
    induction p as [A x|A e|A l0 k IH|A l0 v k IH|A b n c k IH|A b n k IH|A p0 IHp q0 IHq k IHk];
      intros R W l w HWR Hfp Hn; simpl in *; try done.
    - destruct Hn as [-> ->]. split; [tauto|done].
    - destruct Hn as [-> ->]. destruct Hfp as [HW _]. auto.
    - destruct l as [b' i]. simpl in Hn. destruct Hn as (-> & Hi & ->). destruct Hfp as [HW _]. auto.
    - destruct l as [b' i]. simpl in Hn. destruct Hn as (-> & Hi & ->). destruct Hfp as [HW _]. auto.
    - destruct Hfp as [(Rp & Wp & Rq & Wq & ?&?&?&?&?&?&?&?&Hp&Hq) Hk].
      destruct Hn as [Hn|Hn]; [apply (IHp Rp Wp) in Hn|apply (IHq Rq Wq) in Hn]; auto; naive_solver.
  Qed.
  Lemma fp_no_race {A} (p : prog A) : forall (R W : loc -> Prop),
    (forall l, W l -> R l) -> fp R W p -> ~ race p.
  Proof.
    induction p as [A x|A e|A l0 k IH|A l0 v k IH|A b n c k IH|A b n k IH|A p0 IHp q0 IHq k IHk];
      intros R W HWR Hfp Hr; simpl in *; try done.
    destruct Hfp as [(Rp & Wp & Rq & Wq & ?&?&?&?&?&?&?&?&Hp&Hq) Hk].
    destruct Hr as [Hr|[Hr|(l & w1 & w2 & Hn1 & Hn2 & Hw)]]; [by apply (IHp Rp Wp)|by apply (IHq Rq Wq)|].
    apply (fp_next _ Rp Wp) in Hn1; [|done|done]. apply (fp_next _ Rq Wq) in Hn2; [|done|done].
    destruct Hw as [->| ->]; naive_solver.
  Qed.

  (** Every program terminates on every schedule, whatever the other threads do. *)
  Definition pstep {A} (p' p : prog A) : Prop := exists h h', step (p, h) (p', h').
  Lemma pstep_acc {A} (p : prog A) : Acc pstep p.
  Proof.
    induction p as [A x|A e|A l k IH|A l v k IH|A b n c k IH|A b n k IH|A p0 IHp q0 IHq k IHk].
    - constructor. intros p' (h & h' & Hs). inversion Hs.
    - constructor. intros p' (h & h' & Hs). inversion Hs.
    - constructor. intros p' (h & h' & Hs). inversion Hs; subst. apply IH.
    - constructor. intros p' (h & h' & Hs). inversion Hs; subst. apply IH.
    - constructor. intros p' (h & h' & Hs). inversion Hs; subst. apply IH.
    - constructor. intros p' (h & h' & Hs). inversion Hs; subst. apply IH.
    - revert q0 IHq. induction IHp as [p0 _ IHp]. intros q0 IHq.
      induction IHq as [q0 Hq IHq]. constructor. intros p' (h & h' & Hs).
      inversion Hs; subst.
      + apply IHp; [eexists _, _; eassumption|]. by constructor.
      + apply IHq. eexists _, _; eassumption.
      + apply IHk.
  Qed.
  Lemma step_acc {A} (p : prog A) h : Acc (fun c' c => step c c') (p, h).
  Proof.
    revert h. induction (pstep_acc p) as [p _ IH]. intros h.
    constructor. intros [p' h'] Hs. apply IH. by exists h, h'.
  Qed.

  (** ** The theorem: with separated footprints, all schedules agree with the
      sequential run. *)
  Theorem fp_all_schedules {A} (p : prog A) (R W : loc -> Prop) h a hf :
    (forall l, W l -> R l) -> fp R W p -> run p h = Ok (a, hf) -> all_schedules p h a hf.
  Proof.
    intros HWR Hfp Hrun. split; [apply step_acc|].
    intros p' h' Hsteps.
    assert (fp R W p' /\ run p' h' = Ok (a, hf)) as [Hfp' Hrun'].
    { remember (p, h) as c eqn:Ec. remember (p', h') as c' eqn:Ec'.
      revert p h Ec Hfp Hrun. induction Hsteps as [c|c1 [p1 h1] c3 Hs Hsteps IH]; intros p h Ec Hfp Hrun.
      - by simplify_eq.
      - subst c1. eapply IH; [done|reflexivity| |].
        + by eapply step_fp.
        + by eapply step_run. }
    split; [|split].
    - by apply (run_no_fault p' R W h' a hf).
    - by apply (fp_no_race p' R W).
    - by apply (run_progress p' R W).
  Qed.

  (** The final state is the same on any two complete schedules. *)
  Lemma all_schedules_unique {A} (p : prog A) h a hf p' h' :
    all_schedules p h a hf -> rtc step (p, h) (p', h') -> (forall c, ~ step (p', h') c) ->
    p' = Ret a /\ h' = hf.
  Proof.
    intros [_ H] Hsteps Hn. destruct (H p' h' Hsteps) as (_ & _ & [[c Hc]|Hd]); [|done].
    by destruct (Hn c).
  Qed.
  (** ... and a complete schedule exists. *)
  Lemma all_schedules_reachable {A} (p : prog A) h a hf :
    all_schedules p h a hf -> rtc step (p, h) (Ret a, hf).
  Proof.
    intros [Hacc H]. remember (p, h) as c eqn:Ec. revert p h Ec H.
    induction Hacc as [c _ IH]. intros p h -> H.
    destruct (H p h (rtc_refl _ _)) as (_ & _ & [[[p' h'] Hs]|[-> ->]]); [|done].
    eapply rtc_l; [exact Hs|]. eapply IH; [exact Hs|done|].
    intros p2 h2 Hs2. apply H. by eapply rtc_l.
  Qed.
  (** a program that may only read the heap cannot change it, and so on: the
      footprint also bounds what may differ at the end. *)
End Par.

Arguments prog V A : clear implicits.
Arguments Ret {V A}. Arguments Fail {V A}. Arguments Read {V A}. Arguments Write {V A}.
Arguments Alloc {V A}. Arguments Free {V A}. Arguments Fork {V A}.
Notation heap V := (gmap loc (option V)).
