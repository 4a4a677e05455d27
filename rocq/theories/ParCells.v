(** ParCells.v: parallel loops whose iterations each work on one cell of their own.
    (No model definitions in this file.) *)
From Verif Require Export ParLib Spec Performs.

Section cells.
  Context {V : Type}.
  Implicit Types h : heap V.

  Definition own (c : loc) (l : loc) : Prop := l = c.

  Lemma parfor_cells (c : nat -> loc) (body : nat -> prog V unit) (f : nat -> option V) n : forall lo h hf,
    (forall i j, lo <= i < lo + n -> lo <= j < lo + n -> c i = c j -> i = j) ->
    (forall i, lo <= i < lo + n -> fp (own (c i)) (own (c i)) (body i)) ->
    (forall i h', lo <= i < lo + n -> h' !! c i = h !! c i ->
       run (body i) h' = Ok (tt, upd (Some (f i)) (c i) h')) ->
    (forall i, lo <= i < lo + n -> hf !! c i = Some (f i)) ->
    (forall l, (forall i, lo <= i < lo + n -> l <> c i) -> hf !! l = h !! l) ->
    fp (fun l => exists i, lo <= i < lo + n /\ l = c i) (fun l => exists i, lo <= i < lo + n /\ l = c i)
       (parfor n lo body) /\
    run (parfor n lo body) h = Ok (tt, hf).
  Proof.
    induction n as [|n IH]; intros lo h hf Hinj Hfp Hrun Hf1 Hf2.
    - split; [done|]. simpl. f_equal. f_equal. apply map_eq. intros l. symmetry. apply Hf2. intros i Hi; lia.
    - cbn [parfor].
      destruct (IH (S lo) (upd (Some (f lo)) (c lo) h) hf) as [Hfp' Hrun'].
      + intros i j Hi Hj. apply Hinj; lia.
      + intros i Hi. apply Hfp. lia.
      + intros i h' Hi Hh. apply Hrun; [lia|]. rewrite Hh, upd_lookup.
        rewrite decide_False; [done|]. intros Heq. apply Hinj in Heq; lia.
      + intros i Hi. apply Hf1. lia.
      + intros l Hl. rewrite upd_lookup. destruct (decide (l = c lo)) as [->|Hne].
        * apply Hf1. lia.
        * apply Hf2. intros i Hi. destruct (decide (i = lo)) as [->|]; [done|]. apply Hl. lia.
      + split.
        * eapply (fp_Fork _ _ (own (c lo)) (own (c lo))); [| | | | | | | |apply Hfp; lia|exact Hfp'|done].
          all: unfold own; try done; try (intros l -> ; exists lo; split; [lia|done]);
            try (intros l (i & Hi & ->); exists i; split; [lia|done]).
          -- intros l -> (i & Hi & Heq). apply Hinj in Heq; lia.
          -- intros l (i & Hi & ->) Heq. apply Hinj in Heq; lia.
        * simpl. rewrite (Hrun lo h) by (lia || done). simpl. rewrite Hrun'. done.
  Qed.

  Lemma parfor_cells_all (c : nat -> loc) (body : nat -> prog V unit) (f : nat -> option V) n h hf :
    (forall i j, i < n -> j < n -> c i = c j -> i = j) ->
    (forall i, i < n -> fp (own (c i)) (own (c i)) (body i)) ->
    (forall i h', i < n -> h' !! c i = h !! c i -> run (body i) h' = Ok (tt, upd (Some (f i)) (c i) h')) ->
    (forall i, i < n -> hf !! c i = Some (f i)) ->
    (forall l, (forall i, i < n -> l <> c i) -> hf !! l = h !! l) ->
    all_schedules (parfor n 0 body) h tt hf.
  Proof.
    intros Hinj Hfp Hrun Hf1 Hf2.
    destruct (parfor_cells c body f n 0 h hf) as [H1 H2]; simpl; try (intros; eauto; fail).
    - intros i j Hi Hj. apply Hinj; lia.
    - intros i Hi. apply Hfp; lia.
    - intros i h' Hi. apply Hrun; lia.
    - intros i Hi. apply Hf1; lia.
    - intros l Hl. apply Hf2. intros i Hi. apply Hl. lia.
    - eapply fp_all_schedules; [|exact H1|exact H2]. done.
  Qed.
End cells.

Section inplace.
  Context {V : Type}.
  Implicit Types h : heap V.
  (** separated and, run sequentially, taking h to hf *)
  Definition settles (p : prog V unit) h hf : Prop :=
    exists R W : loc -> Prop, (forall l, W l -> R l) /\ fp R W p /\ run p h = Ok (tt, hf).
  Lemma settles_all p h hf : settles p h hf -> all_schedules p h tt hf.
  Proof. intros (R & W & H1 & H2 & H3). by eapply fp_all_schedules. Qed.
  Lemma settles_seq p q h h1 hf : settles p h h1 -> settles q h1 hf -> settles (p ≫= fun _ => q) h hf.
  Proof.
    intros (R & W & H1 & H2 & H3) (R' & W' & H1' & H2' & H3').
    exists (fun l => R l \/ R' l), (fun l => W l \/ W' l). split; [intros l [?|?]; auto|]. split.
    - apply fp_bind; [|intros _].
      + eapply fp_mono; [| |exact H2]; simpl; auto.
      + eapply fp_mono; [| |exact H2']; simpl; auto.
    - rewrite run_bind, H3. simpl. done.
  Qed.
  Lemma parfor_in_place (b : buf) (y y' : list V) (body : nat -> prog V unit) :
    length y' = length y ->
    (forall i, i < length y -> fp (own (b, i)) (own (b, i)) (body i)) ->
    (forall i v w h, y !! i = Some v -> y' !! i = Some w -> h !! (b, i) = Some (Some v) ->
       run (body i) h = Ok (tt, upd (Some (Some w)) (b, i) h)) ->
    settles (parfor (length y) 0 body) (heap_of b y) (heap_of b y').
  Proof.
    intros Hlen Hfp Hrun.
    destruct (parfor_cells (fun i => (b, i)) body (fun i => y' !! i) (length y) 0 (heap_of b y) (heap_of b y')) as [H1 H2].
    - intros i j _ _ Heq. by injection Heq.
    - intros i Hi. apply Hfp; lia.
    - intros i h Hi Hh. rewrite heap_of_lookup in Hh. simpl in Hh. rewrite decide_True in Hh by (split; [done|lia]).
      destruct (lookup_lt_is_Some_2 y i) as [v Hv]; [lia|]. destruct (lookup_lt_is_Some_2 y' i) as [w Hw]; [lia|].
      rewrite Hw. apply (Hrun i v w); [done..|]. by rewrite Hh, Hv.
    - intros i Hi. rewrite heap_of_lookup. simpl. by rewrite decide_True by (split; [done|lia]).
    - intros [b' i] Hl. rewrite !heap_of_lookup. simpl. rewrite Hlen.
      destruct (decide (b' = b /\ i < length y)) as [[-> Hi]|]; [|done]. exfalso. apply (Hl i); [lia|done].
    - eexists _, _. split; [|split; [exact H1|exact H2]]. done.
  Qed.
End inplace.
