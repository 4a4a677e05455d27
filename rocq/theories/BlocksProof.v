(** BlocksProof.v: facts about block-sorted matrices and the block scan *)
From Verif Require Export Csbr GsbProof Groups SimpleProof CsrProof.
From Coq Require Import ZifyNat ZifyBool.

Lemma block_of_mono off nb n i j : blocking off nb n -> i <= j -> j < n -> block_of off nb i <= block_of off nb j.
Proof.
  intros Hb Hij Hj. destruct (block_of_spec off nb n i Hb ltac:(lia)) as [H1 [H2 H3]].
  destruct (block_of_spec off nb n j Hb Hj) as [H4 [H5 H6]].
  destruct (decide (block_of off nb i <= block_of off nb j)) as [|Hn]; [done|].
  pose proof (blocking_mono off nb n (S (block_of off nb j)) (block_of off nb i) Hb ltac:(lia) ltac:(lia)). lia.
Qed.

Section sorted.
  Context {T : Type}.
  Context (roff : list nat) (nbr rows : nat) (coff : list nat) (nbc cols : nat) (E : list (elem T)).
  Context (Hr : blocking roff nbr rows) (Hc : blocking coff nbc cols) (HE : in_range rows cols E).

  (** the elements in the order the blocked formats store them *)
  Definition bsorted : list (elem T) := isort compare_blocks (with_ids roff nbr coff nbc E).

  Lemma bsorted_perm : bsorted ≡ₚ with_ids roff nbr coff nbc E.
  Proof. apply isort_perm. Qed.
  Lemma bsorted_length : length bsorted = length E.
  Proof. unfold bsorted. rewrite isort_length. unfold with_ids. apply fmap_length. Qed.
  Lemma bsorted_coords : coords <$> bsorted ≡ₚ coords <$> E.
  Proof.
    rewrite bsorted_perm. unfold with_ids. rewrite <- list_fmap_compose. apply reflexive_eq, list_fmap_ext. by intros i e _.
  Qed.
  Lemma bsorted_ksorted : ksorted blk bsorted.
  Proof.
    unfold ksorted, bsorted. pose proof (isort_sorted _ swo_compare_blocks (with_ids roff nbr coff nbc E)) as Hs.
    induction Hs as [|a l Hs IH Hf]; constructor; [done|]. eapply Forall_impl; [exact Hf|].
    intros e He. unfold cle in He. rewrite compare_blocks_lex in He. unfold lex in He.
    rewrite orb_false_iff, Nat.ltb_ge in He. lia.
  Qed.
  (** where an element of the sorted list lies *)
  Lemma bsorted_elem e : e ∈ bsorted -> row e < rows /\ col e < cols /\ blk e = block_id roff nbr coff nbc e.
  Proof.
    rewrite bsorted_perm. unfold with_ids. intros (e0 & -> & He0)%elem_of_list_fmap.
    unfold in_range in HE. rewrite Forall_forall in HE. destruct (HE e0 He0). done.
  Qed.
  Lemma bsorted_blk e : e ∈ bsorted ->
    blk e < nbr * nbc /\ blk e / nbc = block_of roff nbr (row e) /\ blk e mod nbc = block_of coff nbc (col e).
  Proof.
    intros He. destruct (bsorted_elem e He) as (H1 & H2 & ->). split; [by eapply block_id_lt|]. by eapply block_id_div.
  Qed.
  Lemma bsorted_inside e : e ∈ bsorted ->
    blk e / nbc < nbr /\ blk e mod nbc < nbc /\ in_block roff (blk e / nbc) (row e) /\ in_block coff (blk e mod nbc) (col e).
  Proof.
    intros He. destruct (bsorted_elem e He) as (H1 & H2 & _). destruct (bsorted_blk e He) as (_ & -> & ->).
    destruct (block_of_spec _ _ _ _ Hr H1), (block_of_spec _ _ _ _ Hc H2). done.
  Qed.
  Lemma bsorted_in_range : in_range rows cols bsorted.
  Proof. apply Forall_forall. intros e He. destruct (bsorted_elem e He) as (?&?&_). done. Qed.

  (** inside each row the order is by column, ties in input order *)
  Lemma bsorted_rows i : coords <$> bfilter (in_row i) bsorted = coords <$> bfilter (in_row i) (isort (bykey col) E).
  Proof.
    unfold bsorted. rewrite (filter_isort _ swo_compare_blocks), (filter_isort _ (swo_bykey col)).
    set (f := fun e : elem T => set_blk (block_id roff nbr coff nbc e) e).
    assert (Hfil : bfilter (in_row i) (with_ids roff nbr coff nbc E) = f <$> bfilter (in_row i) E).
    { unfold with_ids. fold f. clear. induction E as [|e l IH]; [done|]. rewrite fmap_cons. cbn [List.filter].
      assert (in_row i (f e) = in_row i e) as -> by done. destruct (in_row i e); rewrite ?fmap_cons, IH; done. }
    rewrite Hfil. rewrite (isort_ext _ (bykey col)).
    - assert (Hm : isort (bykey col) (f <$> bfilter (in_row i) E) = f <$> isort (bykey col) (bfilter (in_row i) E)).
      { symmetry. apply (isort_map (bykey col) (bykey col) f). done. }
      rewrite Hm, <- list_fmap_compose. apply list_fmap_ext. by intros j e _.
    - intros e1 e2 H1 H2. apply elem_of_list_In, elem_of_list_fmap in H1 as (a1 & -> & H1).
      apply elem_of_list_In, elem_of_list_fmap in H2 as (a2 & -> & H2).
      apply elem_of_list_In, filter_In in H1 as [H1 R1]. apply elem_of_list_In, filter_In in H2 as [H2 R2].
      apply elem_of_list_In in H1, H2. unfold in_row in R1, R2. apply Nat.eqb_eq in R1, R2.
      unfold in_range in HE. rewrite Forall_forall in HE. destruct (HE _ H1) as [_ C1], (HE _ H2) as [_ C2].
      rewrite compare_blocks_lex. unfold lex, bykey, f. cbn [blk row col set_blk]. unfold block_id. rewrite R1, R2.
      rewrite Nat.ltb_irrefl, Nat.eqb_refl. cbn [orb andb].
      set (k := block_of roff nbr i * nbc).
      destruct (Nat.ltb_spec (col a1) (col a2)) as [Hlt|Hge].
      + pose proof (block_of_mono coff nbc cols (col a1) (col a2) Hc ltac:(lia) C2) as Hm.
        destruct (Nat.ltb_spec (k + block_of coff nbc (col a1)) (k + block_of coff nbc (col a2))); [done|].
        rewrite (proj2 (Nat.eqb_eq (k + block_of coff nbc (col a1)) (k + block_of coff nbc (col a2)))) by lia. done.
      + pose proof (block_of_mono coff nbc cols (col a2) (col a1) Hc ltac:(lia) C1) as Hm.
        rewrite (proj2 (Nat.ltb_ge _ _)) by lia. cbn [orb]. apply andb_false_r.
  Qed.
  Lemma bsorted_row_acc `{Scalar T} x i y : row_acc bsorted x i y = row_acc (isort (bykey col) E) x i y.
  Proof.
    assert (Hf : forall l, row_acc l x i y = row_acc (bfilter (in_row i) l) x i y).
    { intros l. unfold row_acc. f_equal. induction l as [|e l IH]; [done|]. cbn.
      destruct (in_row i e) eqn:He; [|done]. cbn. rewrite He. by f_equal. }
    rewrite (Hf bsorted), (Hf (isort (bykey col) E)). apply row_acc_coords. apply bsorted_rows.
  Qed.

  (** the blocks *)
  Definition bids : list nat := keys blk bsorted.
  Lemma bids_sorted : StronglySorted lt bids.
  Proof. apply keys_sorted, bsorted_ksorted. Qed.
  Lemma bids_elem id : id ∈ bids -> exists e, e ∈ bsorted /\ blk e = id.
  Proof. apply keys_elem. Qed.
  Lemma bids_range id : id ∈ bids -> id < nbr * nbc /\ id / nbc < nbr /\ id mod nbc < nbc /\ 0 < nbc.
  Proof.
    intros (e & He & <-)%bids_elem. destruct (bsorted_blk e He) as (H1 & _ & _).
    destruct (bsorted_inside e He) as (H2 & H3 & _). split; [done|]. split; [done|]. split; [done|]. lia.
  Qed.
  Lemma bids_length : length bids <= length E.
  Proof. unfold bids, keys. rewrite <- bsorted_length. etrans; [apply ids_length|]. by rewrite fmap_length. Qed.
  Definition brs : list nat := (fun id => id / nbc) <$> bids.
  Lemma brs_sorted : ksorted (fun n => n) brs.
  Proof.
    clear Hr Hc HE. unfold ksorted, brs. apply StronglySorted_fmap_iff. eapply StronglySorted_mono; [|apply bids_sorted].
    intros a c Hac. cbv beta in *. destruct (decide (nbc = 0)) as [->|]; [done|]. apply Nat.div_le_mono; lia.
  Qed.
  Lemma brs_range : Forall (fun bi => bi < nbr) brs.
  Proof. apply Forall_fmap, Forall_forall. intros id Hid. by apply bids_range. Qed.
  Lemma count_bids `{Widths} : E <> [] -> length E < itW -> count_blocks bsorted = Ok (length bids).
  Proof.
    intros Hne Hw. pose proof (count_blocks_spec bsorted) as Hcb. apply wp_eq. eapply wp_mono; [apply Hcb|].
    - intros Hn. apply Hne. apply length_zero_iff_nil. rewrite <- bsorted_length, Hn. done.
    - by rewrite bsorted_length.
    - apply bsorted_ksorted.
    - intros n Hn. eapply distinct_unique; [exact Hn|]. apply ids_distinct. apply (ksorted_keys blk), bsorted_ksorted.
  Qed.
  Lemma check_blocking_ok `{Widths} : nbr <= rows -> nbc <= cols -> check_blocking (full roff) nbr rows (full coff) nbc cols = Ok tt.
  Proof.
    intros H1 H2. unfold check_blocking. rewrite !(proj2 (Nat.leb_le _ _)) by done. cbn [assert_ mbind outcome_bind].
    pose proof (blocking_get roff nbr rows nbr Hr ltac:(lia)) as G1. pose proof (blocking_get coff nbc cols nbc Hc ltac:(lia)) as G2.
    destruct Hr as (_ & _ & Er & _), Hc as (_ & _ & Ec & _). rewrite Er in G1. rewrite Ec in G2. rewrite G1, G2.
    cbn [mbind outcome_bind]. rewrite Nat.eqb_refl. cbn [assert_ mbind outcome_bind]. by rewrite Nat.eqb_refl.
  Qed.
End sorted.

(** ** the scan *)
Section scan_proof.
  Context {T : Type} `{Widths} {St : Type}.
  Implicit Types l : list (elem T).
  Lemma block_scan_spec (new : nat -> nat -> nat -> St -> outcome St) (add : nat -> nat -> elem T -> St -> outcome St)
      (E : list (elem T)) (st : St) (Inv : list (elem T) -> St -> Prop) :
    ksorted blk E -> (forall e, E !! 0 = Some e -> blk e <> itW - 1) -> length E < itW ->
    Inv [] st ->
    (forall l e s, (exists r, E = l ++ e :: r) -> ksorted blk (l ++ [e]) -> last (blk <$> l) <> Some (blk e) -> Inv l s ->
       wp (new (length (keys blk l)) (length l) (blk e) s) (fun s' => wp (add (length (keys blk l)) (length l) e s') (Inv (l ++ [e])))) ->
    (forall l e s, (exists r, E = l ++ e :: r) -> ksorted blk (l ++ [e]) -> last (blk <$> l) = Some (blk e) -> Inv l s ->
       wp (add (length (keys blk l) - 1) (length l) e s) (Inv (l ++ [e]))) ->
    wp (block_scan new add E st) (Inv E).
  Proof.
    intros Hs Hb Hn H0 Hnew Hold. unfold block_scan. apply wp_bind.
    pose (J := fun (i : nat) (s : nat * nat * St) => let '(k, prev, s) := s in
      k = (match i with O => itW - 1 | S _ => length (keys blk (take i E)) - 1 end) /\
      prev = (match i with O => itW - 1 | S _ => match last (blk <$> take i E) with Some p => p | None => itW - 1 end end) /\ Inv (take i E) s).
    eapply wp_mono; [apply (wp_for_range J)|].
    - lia.
    - done.
    - intros i [[k prev] s] Hi (-> & -> & HI).
      destruct (lookup_lt_is_Some_2 E i) as [e He]; [lia|]. rewrite (lget_some _ _ _ He). cbn [mbind outcome_bind].
      assert (Hsplit : E = take i E ++ e :: drop (S i) E) by (by rewrite take_drop_middle).
      assert (Hks : ksorted blk (take i E ++ [e])).
      { unfold ksorted in *. rewrite Hsplit in Hs. replace (take i E ++ e :: drop (S i) E) with ((take i E ++ [e]) ++ drop (S i) E) in Hs by (by rewrite <- app_assoc).
        clear -Hs. revert Hs. generalize (take i E ++ [e]). intros l Hs. induction l as [|a l IH]; [constructor|].
        cbn in Hs. inversion_clear Hs as [|? ? H1 H2]. constructor; [by apply IH|]. by apply Forall_app in H2 as [H2 _]. }
      assert (Hlen : length (take i E) = i) by (rewrite take_length; lia).
      set (l := take i E) in *.
      assert (Hprev : (match i with O => itW - 1 | S _ => match last (blk <$> l) with Some p => p | None => itW - 1 end end) =
                      match last (blk <$> l) with Some p => p | None => itW - 1 end).
      { destruct i; [|done]. unfold l. by rewrite take_0. }
      rewrite Hprev.
      assert (Hfin : forall k s', k = length (keys blk (l ++ [e])) - 1 -> Inv (l ++ [e]) s' -> J (S i) (k, blk e, s')).
      { intros k' s' -> HI'. unfold J. rewrite (take_S_r _ _ _ He). fold l. split; [done|]. split; [|done].
        rewrite fmap_app. cbn [fmap list_fmap]. by rewrite last_snoc. }
      destruct (decide (last (blk <$> l) = Some (blk e))) as [Hl|Hl].
      + rewrite Hl, Nat.eqb_refl. cbn [mbind outcome_bind].
        assert (Hi0 : i <> 0). { intros ->. unfold l in Hl. by rewrite take_0 in Hl. }
        destruct i as [|i]; [done|]. apply wp_bind. eapply wp_mono; [rewrite <- Hlen; apply Hold; eauto|].
        intros s' HI'. cbn [wp]. apply Hfin; [|done]. rewrite keys_snoc, decide_True by done. done.
      + assert ((blk e =? match last (blk <$> l) with Some p => p | None => itW - 1 end) = false) as ->.
        { apply Nat.eqb_neq. destruct (last (blk <$> l)) as [p|] eqn:Hlp; [congruence|]. apply Hb.
          apply last_None, fmap_nil_inv in Hlp. rewrite Hlp in Hlen. cbn in Hlen. by subst i. }
        assert (Hk : wadd (match i with O => itW - 1 | S _ => length (keys blk l) - 1 end) 1 = length (keys blk l)).
        { destruct i as [|i'].
          - unfold l. rewrite take_0. cbn. unfold wadd, wrap. replace (itW - 1 + 1) with itW by lia. apply Nat.mod_same. lia.
          - assert (keys blk l <> []).
            { intros Hk. assert (last (keys blk l) = None) as Hk2 by (by rewrite Hk). unfold keys in Hk2. rewrite ids_last in Hk2.
              apply last_None, fmap_nil_inv in Hk2. rewrite Hk2 in Hlen. done. }
            assert (length (keys blk l) <= length E).
            { unfold keys. etrans; [apply ids_length|]. rewrite fmap_length. lia. }
            destruct (keys blk l) as [|q K]; [done|]. cbn [length] in *. unfold wadd. rewrite wrap_small; lia. }
        cbv zeta. rewrite Hk.
        pose proof (Hnew l e s ltac:(eauto) Hks Hl HI) as Hw. rewrite Hlen in Hw. apply wp_bind, wp_bind.
        eapply wp_mono; [exact Hw|]. intros s' Hw'. cbn [wp]. apply wp_bind.
        eapply wp_mono; [exact Hw'|]. intros s'' HI'. cbn [wp]. apply Hfin; [|done].
        rewrite keys_snoc, decide_False by done. rewrite app_length. cbn [length]. lia.
    - intros [[k prev] s] (_ & _ & HI). cbn [wp]. by rewrite firstn_all in HI.
  Qed.
End scan_proof.

Lemma keys_prefix {A} (key : A -> nat) (l r : list A) : length (keys key l) <= length (keys key (l ++ r)).
Proof.
  induction r as [|a r IH] using rev_ind; [by rewrite app_nil_r|]. rewrite app_assoc, keys_snoc.
  case_decide; [done|]. rewrite app_length. lia.
Qed.
Lemma cntlt_position {A} (key : A -> nat) (l r : list A) (a : A) :
  ksorted key (l ++ a :: r) -> Forall (fun c => key c < key a) l -> cntlt (key <$> (l ++ a :: r)) (key a) = length l.
Proof.
  intros Hs Hl. rewrite fmap_app, cntlt_app. rewrite cntlt_all; [|by apply Forall_fmap].
  rewrite fmap_length. assert (cntlt (key <$> a :: r) (key a) = 0) as ->; [|lia].
  unfold cntlt. rewrite filter_none; [done|]. apply Forall_fmap. apply Forall_forall. intros c Hc.
  apply Nat.ltb_ge. assert (Hs2 : ksorted key (a :: r)).
  { unfold ksorted in *. clear -Hs. induction l as [|d l IH]; [done|]. cbn in Hs. inversion_clear Hs. by apply IH. }
  inversion_clear Hs2 as [|? ? H1 H2]. apply elem_of_cons in Hc as [->|Hc]; [done|]. rewrite Forall_forall in H2. by apply H2.
Qed.
(** a loop that rewrites every cell of a full array *)
Lemma amap_loop {A} (step : nat -> arr A -> outcome (arr A)) (l l' : list A) :
  length l = length l' ->
  (forall i a a' r, l !! i = Some a -> l' !! i = Some a' -> aget r i = Ok a -> step i r = aset r i a') ->
  for_range 0 (length l) step (full l) = Ok (full l').
Proof.
  intros Hll Hstep. apply wp_eq.
  assert (Hw : wp (for_range 0 (length l) step (full l)) (fun r => r = full (take (length l) l' ++ drop (length l) l))).
  { apply (wp_for_range (fun i r => r = full (take i l' ++ drop i l))); [lia|done|].
    intros i r Hi ->. destruct (lookup_lt_is_Some_2 l i) as [a Ha]; [lia|]. destruct (lookup_lt_is_Some_2 l' i) as [a' Ha']; [lia|].
    assert (Hlen : length (take i l') = i) by (rewrite take_length; lia).
    rewrite (Hstep i a a' _ Ha Ha').
    - rewrite aset_full by (rewrite app_length, Hlen, drop_length; lia). cbn [wp]. f_equal.
      rewrite insert_app_r_alt by lia. rewrite Hlen, Nat.sub_diag.
      rewrite (take_S_r _ _ _ Ha'). rewrite (drop_S _ _ _ Ha). simpl. by rewrite <- app_assoc.
    - rewrite aget_full. apply lget_some. rewrite lookup_app_r by lia. rewrite Hlen, Nat.sub_diag, lookup_drop, Nat.add_0_r. done. }
  eapply wp_mono; [exact Hw|]. intros r ->. rewrite take_ge, drop_ge by lia. by rewrite app_nil_r.
Qed.
(** writing the last written cell of a partly filled array again *)
Lemma part_reset {A} (l : list A) a v n : length l < n -> aset (part (l ++ [a]) n) (length l) v = Ok (part (l ++ [v]) n).
Proof.
  intros Hn. rewrite aset_ok by (rewrite part_length; rewrite ?app_length; simpl; lia). f_equal. unfold part.
  rewrite insert_app_l by (rewrite full_length, app_length; simpl; lia). rewrite full_insert, !app_length. cbn [length]. f_equal. f_equal.
  rewrite insert_app_r_alt by lia. by rewrite Nat.sub_diag.
Qed.
Lemma part_last {A} (l : list A) a n : aget (part (l ++ [a]) n) (length l) = Ok a.
Proof.
  rewrite part_get by (rewrite app_length; simpl; lia). apply lget_some. rewrite lookup_app_r by lia. by rewrite Nat.sub_diag.
Qed.

Section csr_at.
  Context {T : Type} `{Scalar T}.
  (** row pointers that start at [base] over arrays read from position s + base on *)
  Lemma csr_rep_at (L : list (elem T)) M base (rp : arr nat) (ci : arr nat) (v : arr T) s :
    ksorted row L -> (forall i, i <= M -> aget rp i = Ok (base + cntlt (row <$> L) i)) ->
    (forall j e, L !! j = Some e -> aget ci (s + (base + j)) = Ok (col e) /\ aget v (s + (base + j)) = Ok (val e)) ->
    csr_rep rp 0 ci v s M (fun i => bfilter (in_row i) L).
  Proof.
    intros Hs Hp Hcv i Hi. exists (base + cntlt (row <$> L) i). cbn [Nat.add]. split; [apply Hp; lia|]. split.
    - rewrite Hp by lia. replace (i + 1) with (S i) by lia. rewrite cntlt_S, cnteq_fmap, Nat.add_assoc. done.
    - intros k e Hk.
      assert (He : L !! (cntlt (row <$> L) i + k) = Some e).
      { pose proof (lookup_lt_Some _ _ _ Hk) as Hl.
        pose proof (sorted_slice row L i Hs) as Hsl. change (has row i) with (in_row (T := T) i) in Hsl.
        rewrite <- Hsl in Hk. rewrite cntlt_S, cnteq_fmap in Hk. change (has row i) with (in_row (T := T) i) in Hk.
        rewrite slice_lookup in Hk by lia. done. }
      apply Hcv in He. by rewrite <- Nat.add_assoc.
  Qed.
End csr_at.

(** ** the blocks of a blocked matrix *)
Section blocks.
  Context {T : Type}.
  Context (roff : list nat) (nbr rows : nat) (coff : list nat) (nbc cols : nat) (E : list (elem T)).
  Context (Hr : blocking roff nbr rows) (Hc : blocking coff nbc cols) (HE : in_range rows cols E).
  Notation E' := (bsorted roff nbr coff nbc E).
  Notation I := (bids roff nbr coff nbc E).

  Definition ro (id : nat) : nat := nth (id / nbc) roff 0.
  Definition rsz (id : nat) : nat := nth (S (id / nbc)) roff 0 - nth (id / nbc) roff 0.
  Definition co (id : nat) : nat := nth (id mod nbc) coff 0.
  Definition csz (id : nat) : nat := nth (S (id mod nbc)) coff 0 - nth (id mod nbc) coff 0.
  (** an element in the coordinates of its block *)
  Definition loc (e : elem T) : elem T := Elem (row e - ro (blk e)) (col e - co (blk e)) (val e) (blk e).

  Lemma loc_inside e : e ∈ E' -> ro (blk e) <= row e < ro (blk e) + rsz (blk e) /\ co (blk e) <= col e < co (blk e) + csz (blk e).
  Proof.
    intros He. destruct (bsorted_inside _ _ _ _ _ _ _ Hr Hc HE e He) as (_ & _ & [H1 H2] & [H3 H4]).
    unfold ro, rsz, co, csz. lia.
  Qed.
  Lemma geometry_range id : id ∈ I -> ro id + rsz id <= rows /\ co id + csz id <= cols /\
     nth (S (id / nbc)) roff 0 = ro id + rsz id /\ nth (S (id mod nbc)) coff 0 = co id + csz id.
  Proof.
    intros Hid. destruct (bids_range _ _ _ _ _ _ _ Hr Hc HE id Hid) as (_ & H1 & H2 & _). unfold ro, rsz, co, csz.
    pose proof (blocking_le _ _ _ (S (id / nbc)) Hr ltac:(lia)). pose proof (blocking_le _ _ _ (S (id mod nbc)) Hc ltac:(lia)).
    pose proof (blocking_mono _ _ _ (id / nbc) (S (id / nbc)) Hr ltac:(lia) ltac:(lia)).
    pose proof (blocking_mono _ _ _ (id mod nbc) (S (id mod nbc)) Hc ltac:(lia) ltac:(lia)). lia.
  Qed.
  Lemma blk_in_bids e : e ∈ E' -> blk e ∈ I.
  Proof. intros He. apply keys_elem. eauto. Qed.

  Definition blocks_at (id : nat) : list (elem T) := group blk id E'.
  Lemma blocks_at_elem id e : e ∈ blocks_at id -> e ∈ E' /\ blk e = id.
  Proof. unfold blocks_at, group. intros [H1 H2]%elem_of_list_In%filter_In. apply elem_of_list_In in H1. split; [done|]. by apply Nat.eqb_eq. Qed.
  Lemma blocks_at_lookup id k e : blocks_at id !! k = Some e -> E' !! (cntlt (blk <$> E') id + k) = Some e.
  Proof.
    unfold blocks_at. rewrite (group_slice blk E' id (bsorted_ksorted _ _ _ _ _)). intros Hk.
    pose proof (lookup_lt_Some _ _ _ Hk) as Hl. rewrite slice_lookup in Hk; [done|].
    unfold slice in Hl. rewrite take_length in Hl. lia.
  Qed.
  Lemma blocks_at_sorted id : ksorted row (loc <$> blocks_at id).
  Proof.
    pose proof (isort_sorted _ swo_compare_blocks (with_ids roff nbr coff nbc E)) as Hs.
    fold E' in Hs. unfold ksorted. apply StronglySorted_fmap_iff.
    unfold blocks_at, group. induction Hs as [|a l Hs IH Hf]; [constructor|]. cbn [List.filter].
    unfold has at 1. destruct (Nat.eqb_spec (blk a) id) as [Ha|]; [|done]. constructor; [done|].
    apply Forall_forall. intros e [H1 H2]%elem_of_list_In%filter_In. apply elem_of_list_In in H1. apply Nat.eqb_eq in H2.
    rewrite Forall_forall in Hf. specialize (Hf e H1). unfold cle in Hf. rewrite compare_blocks_lex in Hf. unfold lex in Hf.
    rewrite Ha, H2, Nat.ltb_irrefl, Nat.eqb_refl in Hf. cbn [orb andb] in Hf. unfold loc. cbn [row]. rewrite Ha, H2. lia.
  Qed.
  Lemma loc_row_acc `{Scalar T} id x r y : row_acc (loc <$> blocks_at id) (drop (co id) x) r y = row_acc (blocks_at id) x (ro id + r) y.
  Proof.
    apply row_acc_rebase. apply Forall_forall. intros e He. apply blocks_at_elem in He as [He Hid].
    pose proof (loc_inside e He). unfold loc. cbn [row col val]. rewrite Hid in *. split; [lia|]. split; [lia|done].
  Qed.
  Lemma loc_range id : id ∈ I -> Forall (fun e => row e < rsz id /\ col e < csz id) (loc <$> blocks_at id).
  Proof.
    intros Hid. apply Forall_fmap, Forall_forall. intros e He. apply blocks_at_elem in He as [He Hb].
    pose proof (loc_inside e He). unfold loc. cbn [compose row col]. rewrite Hb in *. lia.
  Qed.

  (** the blocks of row i's block row, in order, add up row i *)
  Lemma blocks_total `{Scalar T} x i y : i < rows ->
    fold_left (fun y k => row_acc (blocks_at (nth k I 0)) x i y) (row_blocks roff nbr (brs roff nbr coff nbc E) i) y =
    row_acc (isort (bykey col) E) x i y.
  Proof.
    intros Hi. unfold row_blocks. set (bi := block_of roff nbr i).
    set (key := fun id : nat => id / nbc).
    assert (Hks : ksorted key I).
    { pose proof (brs_sorted roff nbr coff nbc E) as Hb. unfold ksorted, brs in *. by rewrite StronglySorted_fmap_iff in Hb. }
    pose proof (sorted_slice key I bi Hks) as Hsl. change (key <$> I) with (brs roff nbr coff nbc E) in Hsl.
    rewrite cntlt_S in Hsl. replace (cntlt (brs roff nbr coff nbc E) bi + cnteq (brs roff nbr coff nbc E) bi - cntlt (brs roff nbr coff nbc E) bi) with (cnteq (brs roff nbr coff nbc E) bi) in Hsl by lia.
    rewrite (fold_seq_slice (fun y id => row_acc (blocks_at id) x i y) _ I).
    - rewrite Hsl. rewrite (row_acc_blocks blk E' x i y (has key bi) (bsorted_ksorted _ _ _ _ _)).
      + by eapply bsorted_row_acc.
      + intros e He Hrow. unfold has, key. apply Nat.eqb_eq. destruct (bsorted_blk _ _ _ _ _ _ _ Hr Hc HE e He) as (_ & -> & _).
        by rewrite Hrow.
    - intros k id acc Hk Hid. rewrite (nth_lookup_Some I k 0 id Hid). done.
    - rewrite <- cntlt_S. etrans; [apply cntlt_le|]. unfold brs. by rewrite fmap_length.
  Qed.

  (** a parallel loop over the block rows whose turns add up their blocks *)
  Lemma block_rows_spec `{Scalar T} (x : list T) (body : nat -> prog T unit) (b : buf) (y : list T) : length y = rows ->
    (forall bi, bi < nbr ->
       performs (body bi) b (0 + nth bi roff 0) (nth (S bi) roff 0 - nth bi roff 0) (fun _ => False)
         (fun r y => fold_left (fun y k => row_acc (blocks_at (nth k I 0)) x (nth bi roff 0 + r) y)
                       (seq (cntlt (brs roff nbr coff nbc E) bi) (cntlt (brs roff nbr coff nbc E) (S bi) - cntlt (brs roff nbr coff nbc E) bi)) y)) ->
    all_schedules (parfor nbr 0 body) (heap_of b y) tt (heap_of b (spmv_by_column E x y)).
  Proof.
    intros Hy Hbody.
    assert (Hp : performs (parfor nbr 0 body) b 0 rows (fun _ => False)
       (fun i y => fold_left (fun y k => row_acc (blocks_at (nth k I 0)) x i y) (row_blocks roff nbr (brs roff nbr coff nbc E) i) y)).
    { eapply performs_priv; [|eapply (parfor_rows roff nbr rows Hr _ b (fun _ _ => False))].
      - by intros z (i & _ & []).
      - intros bi Hbi. eapply performs_ext; [|apply Hbody; done]. intros r z Hrr. cbv beta. unfold row_blocks.
        rewrite (block_of_at roff nbr rows Hr) by done. rewrite cntlt_S. do 2 f_equal. lia.
      - done.
      - by intros i _ []. }
    rewrite <- Hy in Hp. pose proof (performs_vector _ b y _ _ Hp ltac:(by intros [])) as Hall.
    erewrite imap_ext_lt in Hall; [exact Hall|]. intros i a Hi. cbv beta. apply blocks_total. lia.
  Qed.

  (** the kernels on any blocked matrix with these blocks *)
  Section kernels.
    Context `{Scalar T} `{Widths}.
    Context (A : blocked T) (x : list T) (Hrows : rows < itW).
    Context (Hbr : bk_blockrows A = nbr) (Hptr : bk_ptr A = full (ptrs (brs roff nbr coff nbc E) nbr)).
    Context (Hroff : forall bi, bi <= nbr -> bk_roff A bi = Ok (nth bi roff 0)).
    Context (Hblock : forall k id, I !! k = Some id -> block_does A x k (rsz id) (fun r => row_acc (blocks_at id) x (ro id + r))).

    Lemma block_does_G k bi : brs roff nbr coff nbc E !! k = Some bi ->
      block_does A x k (nth (S bi) roff 0 - nth bi roff 0) (fun r => row_acc (blocks_at (nth k I 0)) x (nth bi roff 0 + r)).
    Proof.
      unfold brs. rewrite list_lookup_fmap. destruct (I !! k) as [id|] eqn:Hid; [|done]. intros [= <-].
      rewrite (nth_lookup_Some I k 0 id Hid). apply (Hblock k id Hid).
    Qed.
    Lemma blocked_balanced (parts : list (list nat)) (b : buf) (y : list T) : length y = rows ->
      all_schedules (spmv_blocked A parts true x b) (heap_of b y) tt (heap_of b (spmv_by_column E x y)).
    Proof.
      intros Hy.
      pose proof (performs_spmv_balanced A x roff nbr rows (brs roff nbr coff nbc E) (fun k => row_acc (blocks_at (nth k I 0)) x)
        Hr Hbr Hptr Hroff (brs_sorted _ _ _ _ _) Hrows block_does_G b) as Hp.
      rewrite <- Hy in Hp. pose proof (performs_vector _ b y _ _ Hp ltac:(by intros [])) as Hall.
      erewrite imap_ext_lt in Hall; [exact Hall|]. intros i a Hi. cbv beta. apply blocks_total. lia.
    Qed.
    Definition spmv_chunked (parts : list (list nat)) (y : list T) : list T :=
      imap (fun i yi => let chunks := row_chunks roff nbr parts i in
                        chunk_val (length chunks) (fun k => row_acc (blocks_at (nth k I 0)) x i) chunks 0 (length chunks - 1) yi) y.
    Lemma blocked_unbalanced (parts : list (list nat)) (b : buf) (y : list T) : length y = rows ->
      good_partition nbr (brs roff nbr coff nbc E) parts ->
      all_schedules (spmv_blocked A parts false x b) (heap_of b y) tt (heap_of b (spmv_chunked parts y)).
    Proof.
      intros Hy Hgood.
      pose proof (performs_spmv_unbalanced A x roff nbr rows (brs roff nbr coff nbc E) (fun k => row_acc (blocks_at (nth k I 0)) x)
        Hr Hbr Hroff (brs_sorted _ _ _ _ _) Hrows block_does_G parts b Hgood) as Hp.
      rewrite <- Hy in Hp. apply (performs_vector _ b y _ _ Hp). intros (i & _ & Hi). by apply temp_name_self in Hi.
    Qed.
    Lemma spmv_chunked_exact (one : T) (SR : exact_arith T one) (parts : list (list nat)) (y : list T) : length y = rows ->
      good_partition nbr (brs roff nbr coff nbc E) parts -> spmv_chunked parts y = y_plus_Ax E cols x y.
    Proof.
      clear Hblock Hroff Hptr Hbr A Hrows. intros Hy [Hlen Hgood]. rewrite <- (spmv_by_column_exact one SR rows E cols) by done.
      unfold spmv_chunked, spmv_by_column, spmv_in_order. apply imap_ext_lt. intros i yi Hi.
      destruct (block_of_spec roff nbr rows i Hr ltac:(lia)) as [Hbi _].
      destruct (lookup_lt_is_Some_2 parts (block_of roff nbr i)) as [chunks Hch]; [lia|].
      destruct (Hgood _ _ Hch) as [(Hcl & Hst & Hend & Hm) _].
      unfold row_chunks. rewrite (nth_lookup_Some parts _ [] chunks Hch). cbv zeta.
      rewrite (chunk_val_exact one SR); [| |done|lia|lia|lia].
      - rewrite Hst, Hend, cntlt_S. rewrite <- (blocks_total x i yi) by lia. unfold row_blocks.
        f_equal. f_equal. lia.
      - intros k z. rewrite (row_acc_sum one SR _ x i z), (row_acc_sum one SR _ x i s0). f_equal.
        destruct SR as [A0 AC AA]. by rewrite A0.
    Qed.
  End kernels.
End blocks.
