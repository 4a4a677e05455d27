(** Properties_Bcsr.v: C32.  [blockable]: see Properties_Blocked.v. *)
From Verif Require Import DenseProof Bcsr BlocksProof CsbrProof Properties_Utils Properties_Simple Properties_Blocked Properties_Reuse.
From Coq Require Import ZifyNat ZifyBool.

(** an invariant of a loop that ends normally *)
Lemma for_range_ok_inv {S} (J : nat -> S -> Prop) lo hi (body : nat -> S -> outcome S) st st' : lo <= hi -> J lo st ->
  (forall i s s', lo <= i < hi -> J i s -> body i s = Ok s' -> J (Datatypes.S i) s') ->
  for_range lo hi body st = Ok st' -> J hi st'.
Proof.
  intros Hle H0 Hs. unfold for_range. remember (hi - lo) as n eqn:Hn. revert lo Hle H0 Hs Hn st'. revert st.
  induction n as [|n IH]; intros st lo Hle H0 Hs Hn st' He; cbn [for_n] in He.
  - injection He as <-. by replace hi with lo by lia.
  - destruct (body lo st) as [s1| | |] eqn:Hb; try done. cbn [mbind outcome_bind] in He.
    eapply (IH s1 (Datatypes.S lo)); [lia| | |lia|exact He].
    + eapply Hs; [lia|exact H0|exact Hb].
    + intros i s s' Hi. apply Hs. lia.
Qed.
Lemma bind_ok {A C} (m : outcome A) (f : A -> outcome C) r : m ≫= f = Ok r -> exists a, m = Ok a /\ f a = Ok r.
Proof. destruct m; try done. eauto. Qed.

Section C32.
  Context {T : Type} `{Scalar T} `{Widths}.
  Implicit Types (B : coo T) (E : list (elem T)) (roff coff : list nat).

  Lemma bcsr_prefix (v : option nat) (rows cols : nat) E roff nbr coff nbc : blockable (Coo rows cols E) roff nbr coff nbc -> nbr * nbc < itW ->
    0 < nbr * nbc /\ wmul nbr nbc = nbr * nbc /\
    calculate_block_id E (full roff) nbr (full coff) nbc = Ok (with_ids roff nbr coff nbc E) /\
    sort_elements_blocks (with_ids roff nbr coff nbc E) = Ok (bsorted roff nbr coff nbc E) /\
    count_blocks (bsorted roff nbr coff nbc E) = Ok (length (bids roff nbr coff nbc E)) /\
    check_blocking (full roff) nbr rows (full coff) nbc cols = Ok tt.
  Proof.
    intros (Hne & HE & Hr & Hc & H1 & H2 & _ & H4 & H5 & H6) H3. unfold c_nnz in *. cbn [c_rows c_cols c_elems] in *.
    assert (Hpos : 0 < nbr /\ 0 < nbc).
    { destruct E as [|e0 l0]; [done|]. apply Forall_inv in HE. destruct HE as [He1 He2].
      pose proof (block_of_spec _ _ _ _ Hr He1) as [? _]. pose proof (block_of_spec _ _ _ _ Hc He2) as [? _]. lia. }
    split; [nia|]. split; [unfold wmul; by apply wrap_small|].
    split; [by rewrite (calculate_block_id_spec E roff nbr coff nbc rows cols) by (done || lia)|].
    split; [apply sort_elements_blocks_spec|]. split; [by apply count_bids|]. by apply check_blocking_ok.
  Qed.

  (** as C++ defines it: the constructor has undefined behaviour for every matrix and blocking
      the other constructors accept *)
  Theorem C32_bcsr_refuted B roff nbr coff nbc : blockable B roff nbr coff nbc -> nbr * nbc < itW ->
    Coo_to_Bcsr None B (full roff) nbr (full coff) nbc = Undef Uninit.
  Proof.
    destruct B as [rows cols E]. intros HB Hn. destruct (bcsr_prefix None _ _ _ _ _ _ _ HB ltac:(assumption)) as (Hpos & Hw & P1 & P2 & P3 & P4).
    unfold Coo_to_Bcsr. cbn [c_elems c_rows c_cols]. rewrite P1. cbn [mbind outcome_bind]. rewrite P2. cbn [mbind outcome_bind].
    rewrite P3. cbn [mbind outcome_bind]. rewrite P4. cbn [mbind outcome_bind]. rewrite Hw.
    unfold for_range at 1. rewrite Nat.sub_0_r. destruct (nbr * nbc) as [|n]; [lia|]. done.
  Qed.

  (** and even if the variable happens to contain some number v: when two of the first N block
      numbers have no elements (N: the number of blocks that have), the constructor never ends
      normally *)
  Theorem C32_bcsr_any_value_refuted (v : nat) B roff nbr coff nbc N j1 j2 : blockable B roff nbr coff nbc -> nbr * nbc < itW ->
    distinct_count (block_id roff nbr coff nbc <$> c_elems B) N -> j1 < j2 < N ->
    (forall e, e ∈ c_elems B -> block_id roff nbr coff nbc e <> j1 /\ block_id roff nbr coff nbc e <> j2) ->
    forall r, Coo_to_Bcsr (Some v) B (full roff) nbr (full coff) nbc <> Ok r.
  Proof.
    destruct B as [rows cols E]. intros HB Hfew HN Hj Hempty r. cbn [c_elems] in *.
    destruct (bcsr_prefix None _ _ _ _ _ _ _ HB ltac:(assumption)) as (Hpos & Hw & P1 & P2 & P3 & P4).
    pose proof HB as (Hne & HE & Hr & Hc & H1 & H2 & H3 & H4 & H5 & H6). unfold c_nnz in *. cbn [c_rows c_cols c_elems] in *.
    (* an empty block other than v *)
    assert (exists j, j < N /\ j <> v /\ forall e, e ∈ bsorted roff nbr coff nbc E -> blk e <> j) as (j & HjN & Hjv & Hje).
    { assert (Hx : forall j, (forall e, e ∈ E -> block_id roff nbr coff nbc e <> j) -> forall e, e ∈ bsorted roff nbr coff nbc E -> blk e <> j).
      { intros j Hx e He. rewrite (bsorted_perm roff nbr coff nbc E) in He. unfold with_ids in He.
        apply elem_of_list_fmap in He as (e0 & -> & He0). by apply Hx. }
      destruct (decide (j1 = v)) as [->|Hn].
      - exists j2. split; [lia|]. split; [lia|]. apply Hx. intros e He. by apply Hempty.
      - exists j1. split; [lia|]. split; [done|]. apply Hx. intros e He. by apply Hempty. }
    assert (HNI : N = length (bids roff nbr coff nbc E)).
    { destruct HN as (D & HD1 & HD2 & <-). apply Permutation_length, NoDup_Permutation; [done|apply increasing_NoDup, bids_sorted|].
      intros k. rewrite HD2. split.
      - intros Hk. apply elem_of_list_fmap in Hk as (e0 & -> & He0). apply (blk_in_bids roff nbr coff nbc E (set_blk (block_id roff nbr coff nbc e0) e0)).
        rewrite (bsorted_perm roff nbr coff nbc E). unfold with_ids. apply elem_of_list_fmap. by exists e0.
      - intros (e & He & <-)%bids_elem. rewrite (bsorted_perm roff nbr coff nbc E) in He. unfold with_ids in He.
        apply elem_of_list_fmap in He as (e0 & -> & He0). apply elem_of_list_fmap. by exists e0. }
    pose (untouched := fun blocks : list bblock => forall B0 : bblock, blocks !! j = Some B0 -> bb_rows B0 = None).
    unfold Coo_to_Bcsr. cbn [c_elems c_rows c_cols]. rewrite P1. cbn [mbind outcome_bind]. rewrite P2. cbn [mbind outcome_bind].
    rewrite P3. cbn [mbind outcome_bind]. rewrite P4. cbn [mbind outcome_bind]. rewrite Hw. cbn [use mbind outcome_bind].
    intros Hok. apply bind_ok in Hok as (blocks & Hb1 & Hok).
    assert (Hset : forall (bs bs' : list bblock) k (B0 : bblock), untouched bs -> k <> j -> lset bs k B0 = Ok bs' -> untouched bs').
    { intros bs bs' k B0 Hu Hk Hs. unfold lset in Hs. destruct (decide _); [|done]. injection Hs as <-.
      intros B1. rewrite list_lookup_insert_ne by done. apply Hu. }
    assert (Hu1 : untouched blocks).
    { apply (for_range_ok_inv (fun _ bs => untouched bs)) in Hb1; [done|lia| |].
      - intros B0 HB0. apply lookup_replicate in HB0 as [-> _]. done.
      - intros i bs bs' _ Hu Hs. cbv beta in Hs. cbn [mbind outcome_bind] in Hs. apply bind_ok in Hs as (B0 & _ & Hs). eapply Hset; [exact Hu| |exact Hs]. done. }
    apply bind_ok in Hok as ([[[g blocks2] ci] v'] & Hb2 & Hok).
    assert (Hu2 : untouched blocks2).
    { unfold block_scan in Hb2. apply bind_ok in Hb2 as ([[bi pb] st] & Hb2 & Hst). injection Hst as ->.
      apply (for_range_ok_inv (fun i st => i <= length (bsorted roff nbr coff nbc E) /\ untouched st.2.1.1.2)) in Hb2; [by apply Hb2|lia| |].
      - split; [lia|done].
      - intros i [[bi' pb'] [[[g' bs] ci'] v2]] [[bi2 pb2] [[[g2 bs2] ci2] v3]] Hi [_ Hu] Hs. cbn [snd fst] in Hu |- *. split; [lia|].
        apply bind_ok in Hs as (e & He & Hs).
        assert (blk e <> j) as Hej.
        { apply Hje. unfold lget in He. destruct (bsorted roff nbr coff nbc E !! i) eqn:Hl; [|done]. injection He as <-. by eapply elem_of_list_lookup_2. }
        apply bind_ok in Hs as ([[bi3 pb3] [[[g3 bs3] ci3] v4]] & Hn & Hs).
        assert (Hu3 : untouched bs3).
        { destruct (blk e =? pb'); [injection Hn as <- <- <- <- <- <-; done|]. cbv zeta in Hn. apply bind_ok in Hn as (st' & Hn & Heq).
          injection Heq as <- <- ->. unfold bcsr_new in Hn. apply bind_ok in Hn as ([[br bc] gg] & _ & Hn). apply bind_ok in Hn as (bs4 & Hl & Heq2).
          injection Heq2 as <- <- <- <-. eapply Hset; [exact Hu|exact Hej|exact Hl]. }
        apply bind_ok in Hs as (st' & Ha & Heq). injection Heq as <- <- ->. unfold bcsr_add in Ha.
        apply bind_ok in Ha as (gg & _ & Ha). apply bind_ok in Ha as (u & _ & Ha). apply bind_ok in Ha as (B0 & _ & Ha).
        apply bind_ok in Ha as (rp & _ & Ha). apply bind_ok in Ha as (rp' & _ & Ha). apply bind_ok in Ha as (bs4 & Hl & Ha).
        apply bind_ok in Ha as (ci4 & _ & Ha). apply bind_ok in Ha as (v5 & _ & Ha). injection Ha as <- <- <- <-.
        eapply Hset; [exact Hu3|exact Hej|exact Hl]. }
    apply bind_ok in Hok as (blocks3 & Hb3 & _). rewrite <- HNI in Hb3.
    (* block j is not set before it is reached, and then it is read *)
    apply (for_range_ok_inv (fun i bs => (i <= j -> untouched bs) /\ (j < i -> False))) in Hb3; [by apply (proj2 Hb3)|lia|split; [done|lia]|].
    intros i bs bs' Hi [Hu Hf] Hs. split.
    - intros Hij. apply bind_ok in Hs as (B0 & HB0 & Hs). apply bind_ok in Hs as (rws & Hrws & Hs).
      destruct (rws =? 0); [injection Hs as <-; apply Hu; lia|]. apply bind_ok in Hs as (rp & _ & Hs). apply bind_ok in Hs as (rp' & _ & Hs).
      eapply Hset; [apply Hu; lia| |exact Hs]. lia.
    - intros Hij. destruct (decide (i = j)) as [->|]; [|apply Hf; lia].
      apply bind_ok in Hs as (B0 & HB0 & Hs). apply bind_ok in Hs as (rws & Hrws & _). unfold lget in HB0.
      destruct (bs !! j) eqn:Hl; [|done]. injection HB0 as ->. rewrite (Hu ltac:(lia) B0 Hl) in Hrws. done.
  Qed.
End C32.

(** a matrix that meets the hypotheses: 4 x 4 in 2 x 2 blocks would do for the first theorem
    (see C28_C41_ex); for the second: 3 x 3 blocks of one cell, elements in blocks 6, 7, 8 *)
Definition ex_B9 : coo Z := Coo 3 3 [Elem 2 0 1%Z 0; Elem 2 1 1%Z 0; Elem 2 2 1%Z 0].
Example C32_ex : @blockable default_widths Z ex_B9 [0; 1; 2; 3] 3 [0; 1; 2; 3] 3 /\ 3 * 3 < @itW default_widths /\
  distinct_count (block_id [0; 1; 2; 3] 3 [0; 1; 2; 3] 3 <$> c_elems ex_B9) 3 /\ 0 < 1 < 3 /\
  (forall e, e ∈ c_elems ex_B9 -> block_id [0; 1; 2; 3] 3 [0; 1; 2; 3] 3 e <> 0 /\ block_id [0; 1; 2; 3] 3 [0; 1; 2; 3] 3 e <> 1).
Proof.
  split.
  - assert (Hbl : blocking [0; 1; 2; 3] 3 3).
    { split; [done|]. split; [done|]. split; [done|]. intros [|[|[|b]]] Hb; cbn; lia. }
    assert (HB : in_range 3 3 (c_elems ex_B9)) by (repeat constructor; cbn; lia).
    assert (Hnum : numbered (H := default_widths) [0; 1; 2; 3] 3 [0; 1; 2; 3] 3 (c_elems ex_B9)).
    { eapply numbered_small; [exact Hbl|exact Hbl|exact HB|done|apply default_big; done]. }
    unfold blockable, c_nnz. cbn [c_rows c_cols c_elems ex_B9 length] in *.
    repeat match goal with |- _ /\ _ => split end; first [exact Hnum|exact HB|exact Hbl|apply default_big; done|done|lia].
  - split; [apply default_big; done|]. split; [|split; [lia|]].
    + exists [6; 7; 8]. split; [repeat constructor; set_solver|]. split; [|done]. intros k. by vm_compute.
    + intros e He. cbn [c_elems ex_B9] in He. repeat (apply elem_of_cons in He as [->|He]; [by vm_compute|]). by apply elem_of_nil in He.
Qed.
