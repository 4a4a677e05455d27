(** Properties_Number.v: C98, blockings with more blocks than the index type can number, and any
    elements, inside the matrix or not.  The constructors number the blocks block row by block row
    modulo the width of the index type, decode the number into a block and assert that every element
    lies in that block. *)
From Verif Require Import SimpleProof CsrProof DenseProof Cgbr2Proof OutsideProof NumberProof Properties_BlockIo Properties_Cgbr Properties_Range Properties_Blocked Properties_Reuse Properties_Drivers Properties_Outside.
From Coq Require Import ZifyNat ZifyBool.

(** the block an index is put into: the last one that starts at or before it *)
Definition put_into (off : list nat) (nb i b : nat) : Prop :=
  b < nb /\ nth b off 0 <= i /\ forall j, b < j < nb -> i < nth j off 0.
(** the number of an element's block *)
Definition numbered_as {T} (roff : list nat) (nbr : nat) (coff : list nat) (nbc : nat) (e : elem T) (n : nat) : Prop :=
  exists br bc, put_into roff nbr (row e) br /\ put_into coff nbc (col e) bc /\ n = br * nbc + bc.
(** everything [blockable] (Properties_Blocked.v) asks for except that the elements lie inside and
    that their blocks can be numbered *)
Definition blockable_but_number `{Widths} {T} (B : coo T) (roff : list nat) (nbr : nat) (coff : list nat) (nbc : nat) : Prop :=
  c_elems B <> [] /\ blocking roff nbr (c_rows B) /\ blocking coff nbc (c_cols B) /\
  0 < nbr <= c_rows B /\ 0 < nbc <= c_cols B /\ c_rows B + 1 < itW /\ c_cols B < itW /\ c_nnz B < itW.
(** an element that cannot be stored: outside the matrix, or its block beyond the last number *)
Definition misplaced `{Widths} {T} (B : coo T) (roff : list nat) (nbr : nat) (coff : list nat) (nbc : nat) : Prop :=
  exists e, e ∈ c_elems B /\ (c_rows B <= row e \/ c_cols B <= col e \/ exists n, numbered_as roff nbr coff nbc e n /\ itW <= n).

Section C98.
  Context {T : Type} `{Scalar T} `{Widths}.
  Implicit Types (B : coo T) (E L : list (elem T)) (e : elem T) (roff coff : list nat).

  Lemma put_into_block_of off nb n i b : blocking off nb n -> 0 < nb -> put_into off nb i b <-> b = block_of off nb i.
  Proof.
    intros Hb Hpos. destruct (block_of_any off nb n i Hb Hpos) as (Q1 & Q2 & Q3). split; [|intros ->; done].
    intros (R1 & R2 & R3). destruct (Nat.lt_trichotomy b (block_of off nb i)) as [Hlt|[Heq|Hgt]]; [|done|].
    - specialize (R3 (block_of off nb i) ltac:(lia)). lia.
    - specialize (Q3 b ltac:(lia)). lia.
  Qed.
  (** an index inside is put into the block that contains it *)
  Theorem C98_put_into_inside off nb n i b : blocking off nb n -> i < n -> put_into off nb i b <-> b < nb /\ in_block off b i.
  Proof.
    intros Hb Hi. destruct (block_of_spec off nb n i Hb Hi) as [Q1 Q2]. rewrite (put_into_block_of off nb n i b Hb) by lia. split.
    - intros ->. done.
    - intros [R1 R2]. symmetry. by eapply block_of_unique.
  Qed.
  Lemma numbered_as_id roff nbr rows coff nbc cols e n : blocking roff nbr rows -> blocking coff nbc cols -> 0 < nbr -> 0 < nbc ->
    numbered_as roff nbr coff nbc e n <-> n = block_id roff nbr coff nbc e.
  Proof.
    intros Hr Hc P1 P2. unfold numbered_as, block_id. split.
    - intros (br & bc & Q1 & Q2 & ->). apply (put_into_block_of roff nbr rows) in Q1 as ->; [|done|done].
      by apply (put_into_block_of coff nbc cols) in Q2 as ->.
    - intros ->. eexists _, _. split; [by apply (put_into_block_of roff nbr rows)|]. split; [by apply (put_into_block_of coff nbc cols)|done].
  Qed.
  (** what [blockable] asks of the numbers *)
  Theorem C98_numbered_means B roff nbr coff nbc : blockable_but_number B roff nbr coff nbc ->
    numbered roff nbr coff nbc (c_elems B) <->
    (forall e, e ∈ c_elems B -> exists n, numbered_as roff nbr coff nbc e n /\ n < itW) /\
    (exists e n, e ∈ c_elems B /\ numbered_as roff nbr coff nbc e n /\ n <> itW - 1).
  Proof.
    intros (_ & Hr & Hc & [P1 _] & [P2 _] & _). unfold numbered. split.
    - intros [Q1 (e0 & He0 & Q2)]. split.
      + intros e He. exists (block_id roff nbr coff nbc e). split; [by eapply numbered_as_id|by apply Q1].
      + exists e0, (block_id roff nbr coff nbc e0). split; [done|]. split; [by eapply numbered_as_id|done].
    - intros [Q1 (e0 & n0 & He0 & Hn0 & Q2)]. split.
      + intros e He. destruct (Q1 e He) as (n & Hn & Hlt). by eapply numbered_as_id in Hn as ->.
      + exists e0. split; [done|]. by eapply numbered_as_id in Hn0 as ->.
  Qed.

  (** the three cases: the constructors work (C28-C31, C33-C38), Csbr and Csbr2 take every element
      for one of a block already begun, or some element is misplaced *)
  Theorem C98_cases B roff nbr coff nbc : blockable_but_number B roff nbr coff nbc ->
    blockable B roff nbr coff nbc \/
    (forall e n, e ∈ c_elems B -> numbered_as roff nbr coff nbc e n -> n mod itW = itW - 1) \/
    ((exists e n, e ∈ c_elems B /\ numbered_as roff nbr coff nbc e n /\ n mod itW <> itW - 1) /\ misplaced B roff nbr coff nbc).
  Proof.
    intros HB. pose proof HB as (Hne & Hr & Hc & [P1 H1] & [P2 H2] & H4 & H5 & H6).
    set (bid := block_id roff nbr coff nbc (T := T)).
    destruct (Forall_Exists_dec (fun e => bid e mod itW = itW - 1) (fun e => bid e mod itW <> itW - 1)
      (fun e => decide (bid e mod itW = itW - 1)) (c_elems B)) as [Hall|Hex].
    { right. left. intros e n He Hn. eapply numbered_as_id in Hn; [|eassumption..]. subst n. rewrite Forall_forall in Hall. by apply Hall. }
    apply Exists_exists in Hex as (e0 & He0 & Hb0).
    set (Pin := fun e : elem T => (row e < c_rows B /\ col e < c_cols B) /\ bid e < itW).
    destruct (Forall_Exists_dec Pin (fun e => ~ Pin e) (fun e => decide (Pin e)) (c_elems B)) as [Hall|Hex].
    - left. rewrite Forall_forall in Hall. split; [done|]. split; [apply Forall_forall; intros e He; by apply Hall|].
      split; [done|]. split; [done|]. split; [done|]. split; [done|]. split; [|done]. split; [intros e He; by apply Hall|].
      exists e0. split; [done|]. intros Heq. apply Hb0. change (block_id roff nbr coff nbc e0) with (bid e0) in Heq. rewrite Heq. apply Nat.mod_small. lia.
    - right. right. split; [exists e0, (bid e0); split; [done|]; split; [by eapply numbered_as_id|done]|].
      apply Exists_exists in Hex as (e1 & He1 & Hn1). exists e1. split; [done|].
      destruct (decide (c_rows B <= row e1)) as [|Nr]; [by left|]. destruct (decide (c_cols B <= col e1)) as [|Nc]; [by right; left|].
      right. right. exists (bid e1). split; [by eapply numbered_as_id|]. destruct (decide (itW <= bid e1)) as [|Nn]; [done|]. exfalso. apply Hn1. unfold Pin. lia.
  Qed.
  Lemma misplaced_not B roff nbr coff nbc : blockable_but_number B roff nbr coff nbc -> misplaced B roff nbr coff nbc ->
    ~ (in_range (c_rows B) (c_cols B) (c_elems B) /\ (forall e, e ∈ c_elems B -> block_id roff nbr coff nbc e < itW)).
  Proof.
    intros (_ & Hr & Hc & [P1 _] & [P2 _] & _) (e & He & Hm) [HE Hn]. unfold in_range in HE. rewrite Forall_forall in HE. destruct (HE e He).
    destruct Hm as [Hm|[Hm|(n & Hm & Hle)]]; [lia..|]. eapply numbered_as_id in Hm; [|eassumption..]. specialize (Hn e He). lia.
  Qed.

  Theorem C98_csbr B roff nbr coff nbc workers : blockable_but_number B roff nbr coff nbc ->
    (exists e n, e ∈ c_elems B /\ numbered_as roff nbr coff nbc e n /\ n mod itW <> itW - 1) -> misplaced B roff nbr coff nbc ->
    Coo_to_Csbr workers B (full roff) nbr (full coff) nbc = Abort.
  Proof.
    intros HB (e & n & He & Hn & Hmod) Hm. apply misplaced_not in Hm; [|done]. destruct HB as (Hne & Hr & Hc & [P1 H1] & [P2 H2] & H4 & H5 & H6).
    destruct B as [rows cols E]. unfold c_nnz in *. cbn [c_rows c_cols c_elems] in *. eapply csbr_misnumbered; try eassumption.
    exists e. split; [done|]. eapply numbered_as_id in Hn; [|eassumption..]. by subst n.
  Qed.
  Theorem C98_csbr2 B roff nbr coff nbc : blockable_but_number B roff nbr coff nbc ->
    (exists e n, e ∈ c_elems B /\ numbered_as roff nbr coff nbc e n /\ n mod itW <> itW - 1) -> misplaced B roff nbr coff nbc ->
    Coo_to_Csbr2 B (full roff) nbr (full coff) nbc = Abort.
  Proof.
    intros HB (e & n & He & Hn & Hmod) Hm. apply misplaced_not in Hm; [|done]. destruct HB as (Hne & Hr & Hc & [P1 H1] & [P2 H2] & H4 & H5 & H6).
    destruct B as [rows cols E]. unfold c_nnz in *. cbn [c_rows c_cols c_elems] in *. eapply csbr2_misnumbered; try eassumption.
    exists e. split; [done|]. eapply numbered_as_id in Hn; [|eassumption..]. by subst n.
  Qed.
  (** all numbers equal the value that stands for no block: the first element is compared with
      offsets that were never set *)
  Theorem C98_csbr_last_number_refuted B roff nbr coff nbc workers : blockable_but_number B roff nbr coff nbc ->
    (forall e n, e ∈ c_elems B -> numbered_as roff nbr coff nbc e n -> n mod itW = itW - 1) ->
    Coo_to_Csbr workers B (full roff) nbr (full coff) nbc = Undef Uninit /\
    Coo_to_Csbr2 B (full roff) nbr (full coff) nbc = Undef Uninit.
  Proof.
    intros (Hne & Hr & Hc & [P1 H1] & [P2 H2] & H4 & H5 & H6) Hall.
    destruct B as [rows cols E]. unfold c_nnz in *. cbn [c_rows c_cols c_elems] in *.
    assert (Hw : forall e, e ∈ E -> wrap (block_id roff nbr coff nbc e) = itW - 1) by (intros e He; apply (Hall e); [done|by eapply numbered_as_id]).
    split; [by eapply csbr_last_number|by eapply csbr2_last_number].
  Qed.

  Lemma number_local E roff nbr rows coff nbc cols id : blocking roff nbr rows -> blocking coff nbc cols -> 0 < nbr -> 0 < nbc ->
    rows + 1 < itW -> cols < itW -> nbr <= rows -> nbc <= cols -> length E < itW ->
    id ∈ keys blk (wsorted roff nbr coff nbc E) ->
    id / nbc < nbr /\ id mod nbc < nbc /\ flocal roff coff nbc (wsorted roff nbr coff nbc E) id <> [] /\ length (flocal roff coff nbc (wsorted roff nbr coff nbc E) id) < itW /\
    rsz roff nbc id = block_rows roff (id / nbc) /\ csz coff nbc id = block_rows coff (id mod nbc) /\ rsz roff nbc id + 1 < itW /\ csz coff nbc id < itW.
  Proof.
    intros Hr Hc P1 P2 Hrows Hcols Hnr Hnc Hn Hid. apply keys_elem in Hid as (e & He & Hb).
    assert (Hab : blk e / nbc < nbr /\ blk e mod nbc < nbc) by (eapply wsorted_blk; eassumption).
    destruct Hab as (B2 & B3). rewrite Hb in B2, B3. split; [done|]. split; [done|]. split.
    { intros Hnil. assert (e ∈ at_block (wsorted roff nbr coff nbc E) id) as Hin.
      { unfold at_block, group. apply elem_of_list_In, filter_In. split; [by apply elem_of_list_In|]. unfold has. by rewrite Hb, Nat.eqb_refl. }
      unfold flocal in Hnil. apply fmap_nil_inv in Hnil. rewrite Hnil in Hin. by apply elem_of_nil in Hin. }
    split. { unfold flocal. rewrite fmap_length. pose proof (group_length blk id (wsorted roff nbr coff nbc E)) as Hgl. rewrite wsorted_length in Hgl. unfold at_block. lia. }
    split; [done|]. split; [done|]. unfold rsz, csz.
    pose proof (blocking_le _ _ _ (S (id / nbc)) Hr ltac:(lia)). pose proof (blocking_le _ _ _ (S (id mod nbc)) Hc ltac:(lia)). lia.
  Qed.

  (** Cgbr and Cgbr2; a block that is made dense has a size the index type can hold *)
  Theorem C98_cgbr (choose : nat -> nat -> nat -> kind) bal B roff nbr coff nbc workers : blockable_but_number B roff nbr coff nbc -> short_type ->
    (forall br bc n, br < nbr -> bc < nbc -> choose (block_rows roff br) (block_rows coff bc) n = KDense -> block_rows roff br * block_rows coff bc < itW) ->
    misplaced B roff nbr coff nbc ->
    Coo_to_Cgbr choose bal workers B (full roff) nbr (full coff) nbc = Abort.
  Proof.
    intros HB Hst Hd Hm. apply misplaced_not in Hm; [|done]. destruct HB as (Hne & Hr & Hc & [P1 H1] & [P2 H2] & H4 & H5 & H6). destruct B as [rows cols E].
    unfold c_nnz in *. cbn [c_rows c_cols c_elems] in *. unfold Coo_to_Cgbr. cbn [c_rows c_cols c_elems].
    erewrite (wprelude roff nbr rows coff nbc cols E); [|first [eassumption|lia]..].
    rewrite (fill_placed roff nbr rows coff nbc cols (wsorted roff nbr coff nbc E)); [done|first [eassumption|lia|rewrite wsorted_length; lia|eapply wsorted_ksorted; eassumption|idtac]..].
    - intros e He. eapply wsorted_blk; eassumption.
    - intros id Hid Hin.
      destruct (number_local E roff nbr rows coff nbc cols id) as (F1 & F2 & F3 & F4 & F5 & F6 & F7 & F8); [first [eassumption|lia]..|].
      apply make_total; try done. rewrite F5, F6. intros Hk. by eapply Hd.
    - intros HF. apply Hm. eapply wsorted_placed; eassumption.
  Qed.
  Theorem C98_cgbr2 (choose : list (elem T) -> nat -> nat -> kind2) B roff nbr coff nbc workers : blockable_but_number B roff nbr coff nbc ->
    (forall br bc L, br < nbr -> bc < nbc -> choose L (block_rows roff br) (block_rows coff bc) = K2Dense -> block_rows roff br * block_rows coff bc < itW) ->
    misplaced B roff nbr coff nbc ->
    Coo_to_Cgbr2 (make_block2 choose) workers B (full roff) nbr (full coff) nbc = Abort.
  Proof.
    intros HB Hd Hm. apply misplaced_not in Hm; [|done]. destruct HB as (Hne & Hr & Hc & [P1 H1] & [P2 H2] & H4 & H5 & H6). destruct B as [rows cols E].
    unfold c_nnz in *. cbn [c_rows c_cols c_elems] in *. unfold Coo_to_Cgbr2. cbn [c_rows c_cols c_elems].
    rewrite (check_blocking_ok roff nbr rows coff nbc cols Hr Hc) by lia. cbn [mbind outcome_bind].
    erewrite (calculate_block_id_wraps roff nbr rows coff nbc cols E); [|first [eassumption|lia]..]. cbn [mbind outcome_bind].
    rewrite sort_elements_blocks_spec. cbn [mbind outcome_bind]. fold (wsorted roff nbr coff nbc E).
    erewrite (count_wsorted); [|first [eassumption|lia]..]. cbn [mbind outcome_bind].
    rewrite (fill_placed roff nbr rows coff nbc cols (wsorted roff nbr coff nbc E)); [done|first [eassumption|lia|rewrite wsorted_length; lia|eapply wsorted_ksorted; eassumption|idtac]..].
    - intros e He. eapply wsorted_blk; eassumption.
    - intros id Hid Hin.
      destruct (number_local E roff nbr rows coff nbc cols id) as (F1 & F2 & F3 & F4 & F5 & F6 & F7 & F8); [first [eassumption|lia]..|].
      right. apply make2_total; try done. rewrite F5, F6. intros Hk. by eapply Hd.
    - intros HF. apply Hm. eapply wsorted_placed; eassumption.
  Qed.

  (** *** constant block sizes, as the drivers use them *)
  Lemma const_but_number B br_size bc_size : 0 < br_size -> 0 < bc_size -> c_elems B <> [] -> 0 < c_rows B -> 0 < c_cols B ->
    c_rows B + 2 < itW -> c_cols B + 2 < itW -> c_nnz B < itW ->
    blockable_but_number B (const_off (c_rows B) br_size) (const_nb (c_rows B) br_size) (const_off (c_cols B) bc_size) (const_nb (c_cols B) bc_size).
  Proof.
    intros S1 S2 Hne P1 P2 H1 H2 H4. unfold blockable_but_number. split; [done|]. rewrite !const_nb_max.
    split; [rewrite <- const_nb_max; by apply const_off_blocking|]. split; [rewrite <- const_nb_max; by apply const_off_blocking|].
    assert (forall n s, 0 < s -> 0 < n -> 0 < Nat.max 1 (n / s) <= n) as Hmax.
    { intros n s Hs Hn. split; [lia|]. assert (n / s <= n) by (apply Nat.div_le_upper_bound; nia). lia. }
    split; [by apply Hmax|]. split; [by apply Hmax|]. lia.
  Qed.
  Theorem C98_const (choose : nat -> nat -> nat -> kind) bal (choose2 : list (elem T) -> nat -> nat -> kind2) B br_size bc_size workers :
    0 < br_size -> 0 < bc_size -> c_elems B <> [] -> 0 < c_rows B -> 0 < c_cols B -> c_rows B + 2 < itW -> c_cols B + 2 < itW -> c_nnz B < itW ->
    let roff := const_off (c_rows B) br_size in let nbr := const_nb (c_rows B) br_size in
    let coff := const_off (c_cols B) bc_size in let nbc := const_nb (c_cols B) bc_size in
    misplaced B roff nbr coff nbc ->
    ((exists e n, e ∈ c_elems B /\ numbered_as roff nbr coff nbc e n /\ n mod itW <> itW - 1) ->
     Coo_to_Csbr_const workers B br_size bc_size = Abort /\ Coo_to_Csbr2_const B br_size bc_size = Abort) /\
    (2 * br_size * (2 * bc_size) <= itW ->
     Coo_to_Cgbr2_const (make_block2 choose2) workers B br_size bc_size = Abort /\
     (short_type -> Coo_to_Cgbr_const choose bal workers B br_size bc_size = Abort)).
  Proof.
    intros S1 S2 Hne P1 P2 H1 H2 H4 roff nbr coff nbc Hm.
    pose proof (const_but_number B br_size bc_size S1 S2 Hne P1 P2 H1 H2 H4) as HB.
    unfold Coo_to_Csbr_const, Coo_to_Csbr2_const, Coo_to_Cgbr_const, Coo_to_Cgbr2_const. rewrite !const_offsets_spec by done. cbn [mbind outcome_bind]. split.
    - intros Hex. split; [by apply C98_csbr|by apply C98_csbr2].
    - intros Hs. split; [|intros Hst].
      + apply C98_cgbr2; [done| |done]. intros br bc L Hbr Hbc _. by apply const_small_but_range.
      + apply C98_cgbr; [done|done| |done]. intros br bc n Hbr Hbc _. by apply const_small_but_range.
  Qed.
End C98.

(** ** concrete cases: an index type of 4 bits, 5 x 5 blocks of one element each *)
Definition w4 : Widths := {| itW := 16; sitW := 16; |}.
Definition off5 : list nat := [0; 1; 2; 3; 4; 5].
Lemma off5_blocking : blocking off5 5 5.
Proof. unfold blocking. repeat split; try done. intros b Hb. do 5 (destruct b as [|b]; [cbn; lia|]). lia. Qed.
Lemma off5_put i b : i < 5 -> put_into off5 5 i b <-> b = i.
Proof.
  intros Hi. rewrite (C98_put_into_inside off5 5 5 i b off5_blocking Hi). unfold in_block, off5. split.
  - intros [Hb Hin]. do 5 (destruct b as [|b]; [cbn in Hin; lia|]). lia.
  - intros ->. split; [done|]. do 5 (destruct i as [|i]; [cbn; lia|]). lia.
Qed.
Definition number_B (r1 c1 r2 c2 : nat) : coo Z := Coo 5 5 [Elem r1 c1 3%Z 0; Elem r2 c2 4%Z 0].
Lemma number_able r1 c1 r2 c2 : @blockable_but_number w4 Z (number_B r1 c1 r2 c2) off5 5 off5 5.
Proof.
  unfold blockable_but_number, c_nnz, number_B. cbn [c_rows c_cols c_elems length]. split; [done|]. split; [apply off5_blocking|].
  split; [apply off5_blocking|]. unfold w4. cbn [itW]. lia.
Qed.
Lemma number_as r c (v : Z) : r < 5 -> c < 5 -> numbered_as off5 5 off5 5 (Elem r c v 0) (r * 5 + c).
Proof. intros H1 H2. exists r, c. cbn [row col]. split; [by apply off5_put|]. split; [by apply off5_put|done]. Qed.
(** 25 blocks and 16 numbers: elements in blocks 6 and 13 make a Csbr matrix, those in blocks 6 and
    21 (which gets number 5) end the program, and an element in block 15 is undefined behaviour *)
Example C98_ex :
  @blockable w4 Z (number_B 1 1 2 3) off5 5 off5 5 /\
  (exists A parts B', @Coo_to_Csbr Z _ w4 1 (number_B 1 1 2 3) (full off5) 5 (full off5) 5 = Ok (A, parts, B')) /\
  @misplaced w4 Z (number_B 1 1 4 1) off5 5 off5 5 /\
  @Coo_to_Csbr Z _ w4 1 (number_B 1 1 4 1) (full off5) 5 (full off5) 5 = Abort /\
  @Coo_to_Cgbr2 Z _ w4 (make_block2 (H0 := w4) (fun _ _ _ => K2CsrParallel)) 1 (number_B 1 1 4 1) (full off5) 5 (full off5) 5 = Abort /\
  Coo_to_Csbr2 (H0 := w4) (number_B 3 0 3 0) (full off5) 5 (full off5) 5 = Undef Uninit.
Proof.
  assert (Hmis : @misplaced w4 Z (number_B 1 1 4 1) off5 5 off5 5).
  { exists (Elem 4 1 4%Z 0). split; [unfold number_B; cbn [c_elems]; set_solver|]. right. right. exists 21. split; [apply (number_as 4 1); lia|unfold w4; cbn [itW]; lia]. }
  split; [|split; [|split; [exact Hmis|split; [|split]]]].
  - destruct (@C98_cases Z w4 (number_B 1 1 2 3) off5 5 off5 5 (number_able _ _ _ _)) as [HB|[Hall|[_ (e & He & Hm)]]]; [exact HB| |]; exfalso.
    + specialize (Hall (Elem 1 1 3%Z 0) 6 ltac:(unfold number_B; cbn [c_elems]; set_solver) ltac:(apply (number_as 1 1); lia)). vm_compute in Hall. done.
    + assert (Hcase : e = Elem 1 1 3%Z 0 \/ e = Elem 2 3 4%Z 0) by (unfold number_B in He; cbn [c_elems] in He; set_solver).
      destruct Hm as [Hm|[Hm|(n & (br & bc & Q1 & Q2 & ->) & Hle)]]; [destruct Hcase; subst e; cbn in Hm; lia..|].
      unfold w4 in Hle. cbn [itW] in Hle. destruct Hcase; subst e; cbn [row col] in Q1, Q2; apply off5_put in Q1, Q2; lia.
  - eexists _, _, _. vm_compute. reflexivity.
  - apply (C98_csbr (H0 := w4)); [apply number_able| |exact Hmis]. exists (Elem 1 1 3%Z 0), 6.
    split; [unfold number_B; cbn [c_elems]; set_solver|]. split; [apply (number_as 1 1); lia|]. vm_compute. done.
  - apply (C98_cgbr2 (H0 := w4)); [apply number_able| |exact Hmis]. by intros.
  - apply (C98_csbr_last_number_refuted (H0 := w4) _ off5 5 off5 5 1); [apply number_able|].
    intros e n He (br & bc & Q1 & Q2 & ->). assert (Hcase : e = Elem 3 0 3%Z 0 \/ e = Elem 3 0 4%Z 0) by (unfold number_B in He; cbn [c_elems] in He; set_solver).
    destruct Hcase; subst e; cbn [row col] in Q1, Q2; apply off5_put in Q1, Q2; try lia; subst br bc; done.
Qed.
