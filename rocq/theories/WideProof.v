(** WideProof.v: Cgbr and Cgbr2 when blocks are larger than the short index type can number. *)
From Verif Require Export DupProof Csbr3Proof.
From Coq Require Import ZifyNat ZifyBool.

(** ** a computation that does what another does, or is stopped by an assertion *)
Definition follows {A : Type} (m m' : outcome A) : Prop := m = m' \/ m = Abort.
Lemma follows_refl {A : Type} (m : outcome A) : follows m m.
Proof. by left. Qed.
Lemma follows_bind {A B : Type} (m m' : outcome A) (f f' : A -> outcome B) :
  follows m m' -> (forall a, follows (f a) (f' a)) -> follows (m ≫= f) (m' ≫= f').
Proof. intros [-> | ->] Hf; [|by right]. destruct m' as [a| | |]; cbn; [apply Hf|by left..]. Qed.
Lemma follows_while {S : Type} fuel (cond : S -> outcome bool) (body body' : S -> outcome S) st :
  (forall st, follows (body st) (body' st)) -> follows (while_ fuel cond body st) (while_ fuel cond body' st).
Proof.
  intros Hb. revert st. induction fuel as [|f IH]; intros st; [by left|]. cbn [while_].
  apply follows_bind; [by left|]. intros []; [|by left]. by apply follows_bind.
Qed.

Section abort.
  Context {T : Type} `{Scalar T} `{Widths}.
  Implicit Types (E L : list (elem T)) (x y : list T) (roff coff : list nat).
  Lemma follows_fill (make make' : factory (T := T)) B E (roff : arr nat) nbr (coff : arr nat) nbc n :
    (forall L r c, follows (make L r c) (make' L r c)) ->
    follows (cgbr_fill make B E roff nbr coff nbc n) (cgbr_fill make' B E roff nbr coff nbc n).
  Proof.
    intros Hm. unfold cgbr_fill. apply follows_bind; [|intros; by left]. unfold fill_blocks. apply follows_while.
    intros [[[[[[[i k] E0] ptr] ind] blocks] tb] tn]. unfold fill_body.
    repeat first [apply follows_refl | apply Hm | apply follows_bind | intros ? | match goal with p : _ * _ |- _ => destruct p end].
  Qed.
  (** the factory that goes on where another one stops *)
  Definition go_on (j : nat) (make : factory (T := T)) : factory := fun L r c =>
    match make L r c with Abort => Ok (GBlock j (MCoo (Coo1 0 [] [] [])), 0, L) | o => o end.

  Section fill.
    Context roff (nbr rows : nat) coff (nbc cols : nat) E.
    Context (Hr : blocking roff nbr rows) (Hc : blocking coff nbc cols) (HE : in_range rows cols E).
    Context (Hne : E <> []) (Hnr : nbr <= rows) (Hnc : nbc <= cols) (Hids : numbered roff nbr coff nbc E).
    Context (Hrows : rows + 1 < itW) (Hcols : cols < itW) (Hnnz : length E < itW).
    Context (make : factory (T := T)).
    Notation I := (bids roff nbr coff nbc E).
    Notation local := (local roff nbr coff nbc E).
    Context (Hall : forall id, id ∈ I -> make (local id) (rsz roff nbc id) (csz coff nbc id) = Abort \/
      exists B ty L, make (local id) (rsz roff nbc id) (csz coff nbc id) = Ok (B, ty, L) /\ length L = length (local id) /\ ty < MATRIX_TYPE_NUM).
    Lemma fill_abort id : id ∈ I -> make (local id) (rsz roff nbc id) (csz coff nbc id) = Abort ->
      cgbr_fill make (Coo rows cols E) (bsorted roff nbr coff nbc E) (full roff) nbr (full coff) nbc (length I) = Abort.
    Proof.
      intros Hid Ha.
      assert (Hf : forall j, follows (cgbr_fill make (Coo rows cols E) (bsorted roff nbr coff nbc E) (full roff) nbr (full coff) nbc (length I))
        (Ok (cgbr_matrix roff nbr rows coff nbc cols E (go_on j make), Coo rows cols (cgbr_source roff nbr coff nbc E (go_on j make))))).
      { intros j. rewrite <- (cgbr_fill_spec roff nbr rows coff nbc cols E Hr Hc HE Hne Hnr Hnc Hids Hrows Hcols Hnnz (go_on j make)).
        - apply follows_fill. intros L r c. unfold go_on. destruct (make L r c); [by left|by left|by right|by left].
        - intros id' Hid'. unfold go_on. destruct (Hall id' Hid') as [-> | (B & ty & L & -> & HL & Hty)]; [|by exists B, ty, L].
          eexists _, _, _. split; [reflexivity|]. split; [done|]. unfold MATRIX_TYPE_NUM. lia. }
      destruct (Hf 0) as [F0|F0]; [|done]. destruct (Hf 1) as [F1|F1]; [|done]. exfalso. rewrite F0 in F1. injection F1 as HM _.
      assert (Hb : (made_block roff nbr coff nbc E (go_on 0 make) <$> I) = (made_block roff nbr coff nbc E (go_on 1 make) <$> I)).
      { unfold full in HM. by apply (inj (fmap Some)) in HM. }
      apply elem_of_list_lookup in Hid as [k Hk].
      assert (Hg : gb_nnz <$> (made_block roff nbr coff nbc E (go_on 0 make) <$> I) !! k = gb_nnz <$> (made_block roff nbr coff nbc E (go_on 1 make) <$> I) !! k) by (by rewrite Hb).
      rewrite !list_lookup_fmap, Hk in Hg. cbn in Hg. unfold made_block, made, go_on in Hg. rewrite Ha in Hg. cbn in Hg. done.
    Qed.
  End fill.
End abort.

(** ** COO blocks of Cgbr, whatever their size *)
Section coo_blocks.
  Context {T : Type} `{Scalar T} `{Widths}.
  Implicit Types (E L : list (elem T)) (x y : list T).
  Lemma coo_block_makes choose L (rs cs : nat) : in_range rs cs L -> choose rs cs (length L) = KCoo ->
    itW <= sitW \/ (sitW < itW /\ (N.of_nat sitW < 2147483648)%N) -> Forall (fun e => row e < sitW /\ col e < sitW) L ->
    exists B ty L', makes (make_block choose) tag1 L rs cs B ty L' /\ ~ is_dense (gb_mat B).
  Proof.
    intros HL Hk Hsw Hf0. assert (Hok := Coo_to_BlockCoo_ok L Hsw Hf0). cbv zeta in Hok. set (L' := isort compare_morton L) in *.
    assert (Hp : L' ≡ₚ L) by apply isort_perm.
    assert (Hsp : forall x xo b o, xo + cs <= length x ->
      performs (coo1_spmv (Coo1 (length L') (full (row <$> L')) (full (col <$> L')) (full (val <$> L'))) x xo b o) b o rs (fun _ => False) (row_acc L' (drop xo x))).
    { intros x xo b o Hx. apply (performs_coo1_spmv (fun i => i) L' rs cs); [by apply Forall_forall|unfold in_range; by rewrite Hp|done]. }
    eexists _, _, _. split; [split|].
    - unfold make_block. rewrite Hk, Hok. reflexivity.
    - done.
    - split; [done|]. unfold BLOCK_COO, MATRIX_TYPE_NUM. lia.
    - done.
    - cbn. by rewrite Hp.
    - exact Hsp.
    - exact Hsp.
    - by intros [].
  Qed.
  Lemma coo_block_all choose L (rs cs : nat) : choose rs cs (length L) = KCoo -> sitW < itW -> (N.of_nat sitW < 2147483648)%N ->
    (make_block choose L rs cs = Abort /\ ~ Forall (fun e => row e < sitW /\ col e < sitW) L) \/
    exists B ty L', make_block choose L rs cs = Ok (B, ty, L') /\ length L' = length L /\ ty < MATRIX_TYPE_NUM.
  Proof.
    intros Hk H1 H2. unfold make_block. rewrite Hk. destruct (Coo_to_BlockCoo_spec L H1 H2) as [[Hf Hok]|[Hf Hbad]].
    - right. cbv zeta in Hok. rewrite Hok. eexists _, _, _. split; [reflexivity|]. split; [apply isort_length|]. unfold BLOCK_COO, MATRIX_TYPE_NUM. lia.
    - left. by rewrite Hbad.
  Qed.
End coo_blocks.

(** ** what Cgbr2 computes when block id multiplies by the elements [seen id] (block coordinates) *)
Section seen.
  Context {T : Type} `{Scalar T} `{Widths}.
  Context (roff : list nat) (nbr rows : nat) (coff : list nat) (nbc cols : nat) (E : list (elem T)).
  Context (Hr : blocking roff nbr rows) (Hc : blocking coff nbc cols) (HE : in_range rows cols E).
  Context (Hne : E <> []) (Hnr : nbr <= rows) (Hnc : nbc <= cols) (Hids : numbered roff nbr coff nbc E).
  Context (Hrows : rows + 1 < itW) (Hcols : cols < itW) (Hnnz : length E < itW).
  Context (make : factory (T := T)) (seen : nat -> list (elem T)).
  Notation I := (bids roff nbr coff nbc E).
  Notation local := (local roff nbr coff nbc E).
  Notation made_block := (made_block roff nbr coff nbc E make).
  Notation matrix := (cgbr_matrix roff nbr rows coff nbc cols E make).
  Notation brs := (brs roff nbr coff nbc E).
  Context (Hmk : forall id, id ∈ I -> exists B ty L, make (local id) (rsz roff nbc id) (csz coff nbc id) = Ok (B, ty, L) /\
    length L = length (local id) /\ ty < MATRIX_TYPE_NUM /\
    forall x xo b o, xo + csz coff nbc id <= length x ->
      performs (mblock_spmv (gb_mat B) x xo b o) b o (rsz roff nbc id) (fun _ => False) (row_acc (seen id) (drop xo x))).
  Context (Hin : forall id, id ∈ I -> in_range (rsz roff nbc id) (csz coff nbc id) (seen id)).
  Definition shown : list (elem T) := mjoin ((fun id => global roff coff nbc id <$> seen id) <$> I).

  Lemma seen_make id : id ∈ I -> exists B ty L, make (local id) (rsz roff nbc id) (csz coff nbc id) = Ok (B, ty, L) /\
     length L = length (local id) /\ ty < MATRIX_TYPE_NUM.
  Proof. intros Hid. destruct (Hmk id Hid) as (B & ty & L & H1 & H2 & H3 & _). by exists B, ty, L. Qed.
  Lemma seen_spmv id : id ∈ I -> forall x xo b o, xo + csz coff nbc id <= length x ->
      performs (mblock_spmv (gb_mat (made_block id)) x xo b o) b o (rsz roff nbc id) (fun _ => False) (row_acc (seen id) (drop xo x)).
  Proof.
    intros Hid. destruct (Hmk id Hid) as (B & ty & L & H1 & H2 & H3 & H4). unfold CgbrProof.made_block, made. rewrite H1. exact H4.
  Qed.
  Lemma seen_built workers : 0 < workers -> 2 * workers < itW -> 2 * (length E + 2) < itW ->
    exists parts, Coo_to_Cgbr2 make workers (Coo rows cols E) (full roff) nbr (full coff) nbc =
        Ok (matrix, parts, Coo rows cols (cgbr_source roff nbr coff nbc E make)) /\
      good_partition nbr brs parts.
  Proof.
    intros W1 W2 W3.
    assert (Hpos : 0 < nbr /\ 0 < nbc).
    { destruct E as [|e0 l0]; [done|]. apply Forall_inv in HE. destruct HE as [He1 He2].
      pose proof (block_of_spec _ _ _ _ Hr He1) as [? _]. pose proof (block_of_spec _ _ _ _ Hc He2) as [? _]. lia. }
    destruct (partition_init_tiles (cgbr_view cgbr2_nonzeros matrix) nbr brs workers _ eq_refl eq_refl (min_nnz_ok _ _ W1 W2 Hnnz)) as (parts & Hparts & Hg).
    { intros k Hk. unfold BlocksProof.brs in Hk. rewrite fmap_length in Hk. apply lookup_lt_is_Some in Hk as [id Hk]. unfold cgbr_view, cgbr_matrix.
      cbn [bk_nonzeros cg_blocks]. rewrite aget_full. rewrite (lget_some _ _ (made_block id)) by (by rewrite list_lookup_fmap, Hk). by eexists. }
    { unfold BlocksProof.brs. rewrite fmap_length. pose proof (bids_length roff nbr coff nbc E). lia. }
    exists parts. split; [|done]. unfold Coo_to_Cgbr2. cbn [c_elems c_rows c_cols].
    rewrite (check_blocking_ok roff nbr rows coff nbc cols Hr Hc Hnr Hnc). cbn [mbind outcome_bind].
    rewrite (calculate_block_id_numbered E roff nbr coff nbc rows cols) by (done || lia || apply Hids). cbn [mbind outcome_bind].
    rewrite sort_elements_blocks_spec. cbn [mbind outcome_bind]. fold (bsorted roff nbr coff nbc E).
    rewrite count_bids by done. cbn [mbind outcome_bind].
    rewrite (cgbr_fill_spec roff nbr rows coff nbc cols E Hr Hc HE Hne Hnr Hnc Hids Hrows Hcols Hnnz make seen_make). cbn [mbind outcome_bind].
    rewrite Hparts. done.
  Qed.
  Definition seen_val (x : list T) (id i : nat) (y : T) : T := row_acc (seen id) (drop (co coff nbc id) x) (i - ro roff nbc id) y.
  Lemma seen_G nz x : cols <= length x -> forall k bi, brs !! k = Some bi ->
    block_does (cgbr_view nz matrix) x k (nth (S bi) roff 0 - nth bi roff 0) (fun r => seen_val x (nth k I 0) (nth bi roff 0 + r)).
  Proof.
    intros Hx k bi. unfold BlocksProof.brs. rewrite list_lookup_fmap. destruct (I !! k) as [id|] eqn:Hid; [|done]. intros [= <-].
    rewrite (nth_lookup_Some I k 0 id Hid). intros b o.
    eapply performs_ext; [|eapply (cgbr_block_does roff nbr rows coff nbc cols E Hr Hc HE Hnr Hnc Hrows Hcols Hnnz make x Hx nz
       (fun id x' r => row_acc (seen id) x' r) _ k id Hid)].
    - intros r y Hrr. cbv beta. unfold seen_val. f_equal. unfold ro. lia.
    Unshelve. intros id' Hid' xo b' o' Hxo. by apply seen_spmv.
  Qed.
  Lemma seen_roff bi : bi <= nbr -> aget (cg_roff matrix) bi = Ok (nth bi roff 0).
  Proof. intros Hbi. by apply (blocking_get _ _ _ _ Hr). Qed.
  Definition seen_row (x : list T) (i : nat) (y : T) : T :=
    fold_left (fun y k => seen_val x (nth k I 0) i y) (row_blocks roff nbr brs i) y.
  Definition seen_chunks (x : list T) (parts : list (list nat)) (i : nat) (y : T) : T :=
    let chunks := row_chunks roff nbr parts i in
    chunk_val (length chunks) (fun k => seen_val x (nth k I 0) i) chunks 0 (length chunks - 1) y.
  Lemma seen_balanced nz parts x (b : buf) (y : list T) : cols <= length x -> length y = rows ->
    all_schedules (spmv_blocked (cgbr_view nz matrix) parts true x b) (heap_of b y) tt (heap_of b (imap (seen_row x) y)).
  Proof.
    intros Hx Hy.
    pose proof (performs_spmv_balanced (cgbr_view nz matrix) x roff nbr rows brs (fun k => seen_val x (nth k I 0))
      Hr eq_refl eq_refl seen_roff (brs_sorted _ _ _ _ _) ltac:(lia) (seen_G nz x Hx) b) as Hp.
    rewrite <- Hy in Hp. apply (performs_vector _ b y _ _ Hp). by intros [].
  Qed.
  Lemma seen_unbalanced nz parts x (b : buf) (y : list T) : cols <= length x -> length y = rows -> good_partition nbr brs parts ->
    all_schedules (spmv_blocked (cgbr_view nz matrix) parts false x b) (heap_of b y) tt (heap_of b (imap (seen_chunks x parts) y)).
  Proof.
    intros Hx Hy Hg.
    pose proof (performs_spmv_unbalanced (cgbr_view nz matrix) x roff nbr rows brs (fun k => seen_val x (nth k I 0))
      Hr eq_refl seen_roff (brs_sorted _ _ _ _ _) ltac:(lia) (seen_G nz x Hx) parts b Hg) as Hp.
    rewrite <- Hy in Hp. apply (performs_vector _ b y _ _ Hp). intros (i & _ & Hi). by apply temp_name_self in Hi.
  Qed.

  Context (one : T) (SR : exact_arith T one).
  Notation placed := (fun id => global roff coff nbc id <$> seen id).
  Lemma seen_val_global x id i y : ro roff nbc id <= i -> seen_val x id i y = row_acc (placed id) x i y.
  Proof using.
    clear Hmk Hin SR one Hne Hnr Hnc Hids Hrows Hcols Hnnz make HE Hr Hc.
    intros Hi. unfold seen_val. replace i with (ro roff nbc id + (i - ro roff nbc id)) at 2 by lia.
    rewrite <- (row_acc_rebase (fun e => Elem (row e - ro roff nbc id) (col e - co coff nbc id) (val e) (blk e)) (global roff coff nbc id <$> seen id) x (ro roff nbc id) (co coff nbc id) (i - ro roff nbc id)).
    - rewrite <- list_fmap_compose. apply row_acc_coords. rewrite <- list_fmap_compose. apply list_fmap_ext. intros k e _.
      unfold compose, coords, global. cbn [row col val]. f_equal. f_equal; lia.
    - apply Forall_fmap, Forall_forall. intros e _. unfold compose, global. cbn [row col val]. split; [lia|]. split; [lia|done].
  Qed.
  Lemma placed_inside id e : id ∈ I -> e ∈ placed id ->
    ro roff nbc id <= row e < ro roff nbc id + rsz roff nbc id /\ co coff nbc id <= col e < co coff nbc id + csz coff nbc id.
  Proof using Hin.
    clear Hmk SR one Hne Hnr Hnc Hids Hrows Hcols Hnnz make HE Hr Hc.
    intros Hid (e' & -> & He')%elem_of_list_fmap. specialize (Hin id Hid). unfold in_range in Hin. rewrite Forall_forall in Hin.
    destruct (Hin e' He'). unfold global. cbn [row col]. lia.
  Qed.
  Lemma fold_placed x i bi K y : (forall id, id ∈ K -> id ∈ I) -> block_of roff nbr i = bi -> i < rows ->
    fold_left (fun y id => row_acc (placed id) x i y) (bfilter (has (fun id => id / nbc) bi) K) y = row_acc (mjoin (placed <$> K)) x i y.
  Proof using Hr Hc HE Hin.
    clear Hmk SR one Hne Hnr Hnc Hids Hrows Hcols Hnnz make.
    intros HK Hbi Hi. revert y. induction K as [|id K IH]; intros y; [done|].
    change (mjoin (placed <$> id :: K)) with (placed id ++ mjoin (placed <$> K)). rewrite row_acc_app.
    assert (HK' : forall id, id ∈ K -> id ∈ I) by (intros id' Hid'; apply HK; by right). cbn [List.filter]. unfold has at 1.
    destruct (Nat.eqb_spec (id / nbc) bi) as [Heq|Hne2]; [cbn [fold_left]; by apply IH|]. rewrite IH by done. f_equal.
    unfold row_acc. rewrite filter_none; [done|]. apply Forall_forall. intros e He. unfold in_row. apply Nat.eqb_neq. intros Hre.
    destruct (placed_inside id e (HK id ltac:(left)) He) as [G1 _]. destruct (bids_range _ _ _ _ _ _ _ Hr Hc HE id (HK id ltac:(left))) as (_ & D1 & _).
    destruct (geometry_range _ _ _ _ _ _ _ Hr Hc HE id (HK id ltac:(left))) as (_ & _ & G3 & _).
    apply Hne2. rewrite <- Hbi. symmetry. apply (block_of_unique _ _ _ _ _ Hr D1). unfold in_block. unfold ro in *. lia.
  Qed.
  Lemma seen_row_shown x i y : i < rows -> seen_row x i y = row_acc shown x i y.
  Proof using Hr Hc HE Hin.
    clear Hmk SR one Hne Hnr Hnc Hids Hrows Hcols Hnnz make.
    intros Hi. unfold seen_row, row_blocks. set (bi := block_of roff nbr i). set (key := fun id : nat => id / nbc).
    destruct (block_of_spec roff nbr rows i Hr Hi) as [Hbi [Hb1 Hb2]]. fold bi in Hbi, Hb1, Hb2. cbv zeta.
    assert (Hks : ksorted key I).
    { pose proof (brs_sorted roff nbr coff nbc E) as Hb. unfold ksorted, BlocksProof.brs in *. by rewrite StronglySorted_fmap_iff in Hb. }
    pose proof (sorted_slice key I bi Hks) as Hsl. change (key <$> I) with brs in Hsl.
    rewrite cntlt_S in Hsl. replace (cntlt brs bi + cnteq brs bi - cntlt brs bi) with (cnteq brs bi) in Hsl by lia.
    rewrite (fold_seq_slice (fun y id => row_acc (placed id) x i y) _ I).
    - rewrite Hsl. by apply fold_placed.
    - intros k id acc Hk Hid. rewrite (nth_lookup_Some I k 0 id Hid). apply seen_val_global.
      pose proof (brs_between brs (brs_sorted roff nbr coff nbc E) bi k ltac:(rewrite cntlt_S; lia)) as Hkb.
      unfold BlocksProof.brs in Hkb. rewrite list_lookup_fmap, Hid in Hkb. injection Hkb as Hkb. unfold ro. rewrite Hkb. lia.
    - rewrite <- cntlt_S. etrans; [apply cntlt_le|]. unfold BlocksProof.brs. by rewrite fmap_length.
  Qed.
  Lemma shown_range : in_range rows cols shown.
  Proof using Hr Hc HE Hin.
    clear Hmk SR one Hne Hnr Hnc Hids Hrows Hcols Hnnz make.
    unfold shown, in_range. apply Forall_forall. intros e (L & He & HL)%elem_of_list_join. apply elem_of_list_fmap in HL as (id & -> & Hid).
    destruct (placed_inside id e Hid He). destruct (geometry_range _ _ _ _ _ _ _ Hr Hc HE id Hid) as (G1 & G2 & _). lia.
  Qed.
  Lemma rows_shown x y : length y = rows -> imap (seen_row x) y = y_plus_Ax shown cols x y.
  Proof using Hr Hc HE Hin SR.
    clear Hmk Hne Hnr Hnc Hids Hrows Hcols Hnnz make.
    intros Hy. rewrite <- (spmv_in_order_exact one SR rows shown cols) by (try done; apply shown_range). unfold spmv_in_order.
    apply imap_ext_lt. intros i yi Hi. apply seen_row_shown. lia.
  Qed.
  Lemma seen_val_additive x id i y : seen_val x id i y = sadd y (seen_val x id i s0).
  Proof.
    unfold seen_val. destruct SR as [A0 AC AA].
    rewrite (row_acc_sum one SR _ _ _ y), (row_acc_sum one SR _ _ _ s0). by rewrite A0.
  Qed.
  Lemma chunks_shown x parts y : length y = rows -> good_partition nbr brs parts -> imap (seen_chunks x parts) y = y_plus_Ax shown cols x y.
  Proof.
    intros Hy [Hlen Hgood]. rewrite <- rows_shown by done. apply imap_ext_lt. intros i yi Hi.
    destruct (block_of_spec roff nbr rows i Hr ltac:(lia)) as [Hbi _].
    destruct (lookup_lt_is_Some_2 parts (block_of roff nbr i)) as [chunks Hch]; [lia|].
    destruct (Hgood _ _ Hch) as [(Hcl & Hst & Hend & Hm) _].
    unfold seen_chunks, row_chunks. rewrite (nth_lookup_Some parts _ [] chunks Hch). cbv zeta.
    rewrite (chunk_val_exact one SR); [| |done|lia|lia|lia].
    - rewrite Hst, Hend, cntlt_S. unfold seen_row, row_blocks. cbv zeta. f_equal. f_equal. lia.
    - intros k z. apply seen_val_additive.
  Qed.
  Lemma seen_product workers : 0 < workers -> 2 * workers < itW -> 2 * (length E + 2) < itW ->
    exists A parts B', Coo_to_Cgbr2 make workers (Coo rows cols E) (full roff) nbr (full coff) nbc = Ok (A, parts, B') /\
      forall balanced x y b, cols <= length x -> length y = rows ->
        all_schedules (cgbr2_spmv A balanced parts x b) (heap_of b y) tt (heap_of b (y_plus_Ax shown cols x y)).
  Proof.
    intros W1 W2 W3. destruct (seen_built workers W1 W2 W3) as (parts & HA & Hg). eexists _, parts, _. split; [exact HA|].
    intros [] x y b Hx Hy; unfold cgbr2_spmv.
    - rewrite <- rows_shown by done. by apply seen_balanced.
    - rewrite <- (chunks_shown x parts) by done. by apply seen_unbalanced.
  Qed.
End seen.

(** ** Csbr3 with blocks of any size *)
Section csbr3_wide.
  Context {T : Type} `{Scalar T} `{Widths}.
  Context (rows cols bs : nat) (E : list (elem T)).
  Notation nbr := (ceil_nb rows bs).
  Notation nbc := (ceil_nb cols bs).
  Notation roff := (ceil_off rows bs).
  Notation coff := (ceil_off cols bs).
  Context (Hbs : 0 < bs) (HE : in_range rows cols E) (Hne : E <> []) (Hids : nbr * nbc < itW).
  Context (Hrows : rows + bs < itW) (Hcols : cols + bs < itW) (Hnnz : length E + 1 < itW) (Hsit : 0 < sitW).
  Let Hr : blocking roff nbr rows := ceil_off_blocking rows bs Hbs.
  Let Hc : blocking coff nbc cols := ceil_off_blocking cols bs Hbs.
  Notation E' := (bsorted roff nbr coff nbc E).
  Notation I := (bids roff nbr coff nbc E).
  Notation lc := (BlocksProof.loc roff coff nbc).
  Definition cut3 (e : elem T) : elem T := Elem (swrap (row e)) (swrap (col e)) (val e) (blk e).
  Notation seen := (fun id => cut3 <$> local roff nbr coff nbc E id).
  Lemma cut3_range rs cs (L : list (elem T)) : in_range rs cs L -> in_range rs cs (cut3 <$> L).
  Proof.
    unfold in_range. rewrite Forall_fmap. intros HL. eapply Forall_impl; [exact HL|]. cbv beta. intros e [He1 He2].
    pose proof (Nat.mod_le (row e) sitW ltac:(lia)). pose proof (Nat.mod_le (col e) sitW ltac:(lia)). unfold compose, cut3, swrap. cbn [row col]. lia.
  Qed.
  Lemma csbr3_wide_does x k id : cols <= length x -> I !! k = Some id ->
    block_does (csbr3_view (csbr3_cut rows cols bs E)) x k (rsz roff nbc id) (fun r => row_acc (seen id) (drop (co coff nbc id) x) r).
  Proof.
    intros Hx Hk b o. unfold one_block, csbr3_view, csbr3_cut. cbn [bk_ind bk_coff bk_spmv s3_ind s3_block_size s3_block_ptr s3_val s3_rowind s3_colind].
    assert (Hid : id ∈ I) by (by eapply elem_of_list_lookup_2).
    destruct (offsets_ok rows cols bs E Hbs HE Hids Hrows Hcols Hnnz id Hid) as (_ & O2 & _).
    destruct (geometry_range _ _ _ _ _ _ _ Hr Hc HE id Hid) as (G1 & G2 & _).
    pose proof (lookup_lt_Some _ _ _ Hk) as Hkl.
    assert (HKI : forall q, q ∈ blk <$> E' -> q ∈ I) by (intros q (e & -> & He)%elem_of_list_fmap; by apply blk_in_bids).
    assert (Hst : forall j, j <= length I ->
      aget (full (((fun id => cntlt (blk <$> E') id) <$> I) ++ [length E])) j = Ok (start_of (blk <$> E') I j)).
    { intros j Hj. rewrite aget_full. apply lget_some. unfold start_of. destruct (I !! j) as [i|] eqn:Hi.
      - rewrite lookup_app_l by (rewrite fmap_length; by eapply lookup_lt_Some). by rewrite list_lookup_fmap, Hi.
      - apply lookup_ge_None_1 in Hi. rewrite lookup_app_r by (rewrite fmap_length; lia). rewrite !fmap_length, bsorted_length.
        by replace (j - length I) with 0 by lia. }
    pose proof (start_S (blk <$> E') I (bids_sorted _ _ _ _ _) HKI k id Hk) as HS.
    assert (Hcnt : cnteq (blk <$> E') id = length (blocks_at roff nbr coff nbc E id)) by (rewrite cnteq_fmap; done).
    assert (Hbound : start_of (blk <$> E') I (S k) <= length E).
    { unfold start_of in *. rewrite Hk in HS. rewrite HS, <- cntlt_S. etrans; [apply cntlt_le|]. by rewrite fmap_length, bsorted_length. }
    eapply performs_lift; [rewrite aget_full; apply lget_some; rewrite list_lookup_fmap, Hk; reflexivity|].
    eapply performs_lift; [rewrite O2; reflexivity|].
    eapply performs_lift; [apply Hst; lia|]. eapply performs_lift; [apply Hst; lia|].
    replace (k + 1) with (S k) by lia. rewrite wsub_small by lia. rewrite HS, Hcnt.
    replace (start_of (blk <$> E') I k + length (blocks_at roff nbr coff nbc E id) - start_of (blk <$> E') I k)
      with (length (seen id)) by (unfold CgbrProof.local; rewrite !fmap_length; lia).
    eapply performs_ext; [|eapply (performs_spmv_coo _ _ _ _ _ _ (csz coff nbc id)); [|apply cut3_range; by eapply loc_range|lia]].
    - done.
    - intros j e He. unfold CgbrProof.local in He. rewrite !list_lookup_fmap in He. destruct (blocks_at roff nbr coff nbc E id !! j) as [e0|] eqn:He0; [|done].
      injection He as <-. apply blocks_at_lookup in He0. unfold start_of. rewrite Hk, !aget_full.
      split; [|split]; apply lget_some; rewrite list_lookup_fmap, He0; done.
  Qed.
  Lemma csbr3_wide_spmv x b y (one : T) : exact_arith T one -> cols <= length x -> length y = rows ->
    all_schedules (csbr3_spmv_balanced (csbr3_cut rows cols bs E) x b) (heap_of b y) tt
      (heap_of b (y_plus_Ax (shown roff nbr coff nbc E seen) cols x y)).
  Proof.
    intros SR Hx Hy.
    rewrite <- (rows_shown roff nbr rows coff nbc cols E Hr Hc HE seen) with (one := one); [|..|done|done].
    2: { intros id Hid. apply cut3_range. by eapply loc_range. }
    rewrite csbr3_balanced_eq. set (A := csbr3_view (csbr3_cut rows cols bs E)).
    assert (HG : forall k bi, brs roff nbr coff nbc E !! k = Some bi ->
      block_does A x k (nth (S bi) roff 0 - nth bi roff 0) (fun r => seen_val roff coff nbc seen x (nth k I 0) (nth bi roff 0 + r))).
    { intros k bi. unfold BlocksProof.brs. rewrite list_lookup_fmap. destruct (I !! k) as [id|] eqn:Hid; [|done]. intros [= <-].
      rewrite (nth_lookup_Some I k 0 id Hid). intros b' o. eapply performs_ext; [|by apply (csbr3_wide_does x k id)].
      intros r z Hrr. cbv beta. unfold seen_val. f_equal. unfold ro. lia. }
    assert (Hp : performs (spmv_balanced A x b) b 0 rows (fun _ => False) (seen_row roff nbr coff nbc E seen x)).
    { unfold spmv_balanced. change (bk_blockrows A) with nbr. eapply performs_priv; [|apply (parfor_rows roff nbr rows Hr _ b (fun _ _ => False))].
      - by intros z (i & _ & []).
      - intros bi Hbi. eapply performs_lift; [change (bk_ptr A) with (full (ptrs (brs roff nbr coff nbc E) nbr)); apply ptrs_get; lia|].
        eapply performs_lift; [change (bk_ptr A) with (full (ptrs (brs roff nbr coff nbc E) nbr)); apply ptrs_get; lia|].
        eapply performs_lift.
        { unfold A. cbn [csbr3_view bk_roff csbr3_cut s3_block_size]. destruct (ceil_off_lt rows bs bi Hbs Hbi) as [R1 R3].
          unfold wmul. rewrite wrap_small by lia. rewrite <- R1. reflexivity. }
        eapply performs_ext; [|apply (performs_blocks A x _ _ _ (fun k r => seen_val roff coff nbc seen x (nth k I 0) (nth bi roff 0 + r)))].
        + intros r z Hrr. cbv beta. unfold seen_row, row_blocks. rewrite (block_of_at roff nbr rows Hr) by done.
          replace (bi + 1) with (S bi) by lia. rewrite cntlt_S.
          by replace (cntlt (brs roff nbr coff nbc E) bi + cnteq (brs roff nbr coff nbc E) bi - cntlt (brs roff nbr coff nbc E) bi) with (cnteq (brs roff nbr coff nbc E) bi) by lia.
        + intros k Hk. replace (bi + 1) with (S bi) in Hk by lia. apply HG, brs_between; [apply brs_sorted|lia].
      - done.
      - by intros i _ []. }
    eapply performs_vector; [rewrite Hy; exact Hp|]. by intros [].
  Qed.
End csbr3_wide.
