(** CsbrProof.v: proofs about Csbr.v *)
From Verif Require Export Csbr BlocksProof.
From Coq Require Import ZifyNat ZifyBool.

Lemma group_length {A} (key : A -> nat) j (l : list A) : length (group key j l) <= length l.
Proof. unfold group. induction l as [|a l IH]; [done|]. cbn [List.filter]. destruct (has key j a); cbn [length]; lia. Qed.

(** ** what every constructor's scan meets *)
Section ctor.
  Context {T : Type} `{Widths}.
  Context (roff : list nat) (nbr rows : nat) (coff : list nat) (nbc cols : nat) (E : list (elem T)).
  Context (Hr : blocking roff nbr rows) (Hc : blocking coff nbc cols) (HE : in_range rows cols E).
  Notation E' := (bsorted roff nbr coff nbc E).
  Notation I := (bids roff nbr coff nbc E).
  Implicit Types (l : list (elem T)) (e : elem T).
  Definition geo (id : nat) : geometry := Geo (ro roff nbc id) (rsz roff nbc id) (co coff nbc id) (csz coff nbc id).

  Lemma block_geometry_ok id : id ∈ I -> rows < itW -> cols < itW ->
    block_geometry (full roff) (full coff) nbc id = Ok (id / nbc, id mod nbc, geo id).
  Proof.
    intros Hid Hw1 Hw2. destruct (bids_range _ _ _ _ _ _ _ Hr Hc HE id Hid) as (_ & H1 & H2 & H3).
    destruct (geometry_range _ _ _ _ _ _ _ Hr Hc HE id Hid) as (G1 & G2 & G3 & G4).
    unfold block_geometry. rewrite div_ok, mod_ok by done. cbn [mbind outcome_bind].
    pose proof (blocking_get _ _ _ (id / nbc) Hr ltac:(lia)) as A1. pose proof (blocking_get _ _ _ (S (id / nbc)) Hr ltac:(lia)) as A2.
    pose proof (blocking_get _ _ _ (id mod nbc) Hc ltac:(lia)) as A3. pose proof (blocking_get _ _ _ (S (id mod nbc)) Hc ltac:(lia)) as A4.
    replace (id / nbc + 1) with (S (id / nbc)) by lia. replace (id mod nbc + 1) with (S (id mod nbc)) by lia.
    rewrite A1, A2, A3, A4. cbn [mbind outcome_bind].
    rewrite G3, G4. fold (ro roff nbc id). fold (co coff nbc id). rewrite !wsub_small by lia. unfold geo. do 4 f_equal; lia.
  Qed.
  Lemma check_inside_ok e : e ∈ E' -> rows < itW -> cols < itW -> check_inside (geo (blk e)) e = Ok tt.
  Proof.
    intros He Hw1 Hw2. destruct (loc_inside _ _ _ _ _ _ _ Hr Hc HE e He) as [H1 H2].
    destruct (geometry_range _ _ _ _ _ _ _ Hr Hc HE (blk e)) as (G1 & G2 & _); [by apply (blk_in_bids roff nbr coff nbc E)|].
    unfold check_inside, geo, wadd. cbn [g_ro g_rs g_co g_cs]. rewrite !wrap_small by lia.
    rewrite (proj2 (Nat.leb_le _ _)), (proj2 (Nat.ltb_lt _ _)), (proj2 (Nat.leb_le _ _)), (proj2 (Nat.ltb_lt _ _)) by lia. done.
  Qed.
  Lemma wsub_row e : e ∈ E' -> rows + 1 < itW -> wadd (wsub (row e) (ro roff nbc (blk e))) 1 = row (loc roff coff nbc e) + 1 /\
    wsub (row e) (ro roff nbc (blk e)) = row (loc roff coff nbc e).
  Proof.
    intros He Hw. destruct (loc_inside _ _ _ _ _ _ _ Hr Hc HE e He) as [H1 H2].
    destruct (bsorted_elem _ _ _ _ _ _ _ HE e He) as (H3 & H4 & _).
    rewrite wsub_small by lia. unfold wadd. rewrite wrap_small by lia. done.
  Qed.
  Lemma wsub_col e : e ∈ E' -> cols < itW -> wsub (col e) (co coff nbc (blk e)) = col (loc roff coff nbc e).
  Proof.
    intros He Hw. destruct (loc_inside _ _ _ _ _ _ _ Hr Hc HE e He) as [H1 H2].
    destruct (bsorted_elem _ _ _ _ _ _ _ HE e He) as (H3 & H4 & _). rewrite wsub_small by lia. done.
  Qed.
  (** a prefix of the stored order *)
  Lemma prefix_facts l e r : E' = l ++ e :: r ->
    e ∈ E' /\ length l < length E /\ length (keys blk l) <= length l /\
    length (keys blk (l ++ [e])) <= length I /\ Forall (fun e : elem T => e ∈ E') (l ++ [e]).
  Proof.
    clear Hr Hc HE. intros HE'. split; [rewrite HE'; set_solver|].
    pose proof (bsorted_length roff nbr coff nbc E) as Hlen. rewrite HE', app_length in Hlen. cbn [length] in Hlen.
    split; [lia|]. split; [unfold keys; etrans; [apply ids_length|]; by rewrite fmap_length|]. split.
    - unfold bids. rewrite HE'. replace (l ++ e :: r) with ((l ++ [e]) ++ r) by (by rewrite <- app_assoc). apply keys_prefix.
    - apply Forall_forall. intros c Hin. rewrite HE'. set_solver.
  Qed.
  Lemma prefix_new l e : last (blk <$> l) <> Some (blk e) -> keys blk (l ++ [e]) = keys blk l ++ [blk e].
  Proof. intros Hl. by rewrite keys_snoc, decide_False. Qed.
  Lemma prefix_old l e : last (blk <$> l) = Some (blk e) -> keys blk (l ++ [e]) = keys blk l.
  Proof. intros Hl. by rewrite keys_snoc, decide_True. Qed.
  Lemma pos_new l e r : E' = l ++ e :: r -> Forall (fun c => blk c < blk e) l -> cntlt (blk <$> E') (blk e) = length l.
  Proof. clear Hr Hc HE. intros HE' Hl. pose proof (bsorted_ksorted roff nbr coff nbc E) as Hs. rewrite HE' in *. by apply cntlt_position. Qed.
  Lemma blk_bound : numbered roff nbr coff nbc E -> forall e : elem T, E' !! 0 = Some e -> blk e <> itW - 1.
  Proof.
    clear Hr Hc HE. intros [Hall (e1 & He1 & Hb1)] e He Hb.
    assert (H1 : set_blk (block_id roff nbr coff nbc e1) e1 ∈ E') by (rewrite bsorted_perm; apply elem_of_list_fmap; by exists e1).
    pose proof (bsorted_ksorted roff nbr coff nbc E) as Hs. destruct E' as [|e' l'] eqn:El; [done|]. injection He as ->.
    specialize (Hall e1 He1). apply elem_of_cons in H1 as [<-|H1]; [done|].
    unfold ksorted in Hs. inversion_clear Hs as [|? ? _ HF]. rewrite Forall_forall in HF. specialize (HF _ H1). cbn [blk set_blk] in HF. lia.
  Qed.
End ctor.

Lemma part_full_len {A} (l : list A) n : length l = n -> part l n = full l.
Proof. intros <-. apply part_full. Qed.
Lemma sum_between_join {A} (Ls : list (list A)) : sum_between (fun k => length (nth k Ls [])) 0 (length Ls) = length (mjoin Ls).
Proof.
  induction Ls as [|L Ls IH] using rev_ind; [done|]. rewrite join_app, !app_length. cbn [length]. rewrite Nat.add_1_r, sum_between_S by lia.
  f_equal.
  - rewrite <- IH. unfold sum_between. rewrite Nat.sub_0_r. clear IH.
    assert (Hgen : forall n a, a + n <= length Ls -> sumf (fun k => length (nth k (Ls ++ [L]) [])) a n = sumf (fun k => length (nth k Ls [])) a n).
    { induction n as [|n IHn]; intros a Ha; [done|]. cbn [sumf]. rewrite IHn by lia. rewrite app_nth1 by lia. done. }
    apply Hgen. lia.
  - rewrite app_nth2, Nat.sub_diag by lia. cbn. rewrite app_nil_r. done.
Qed.
(** the blocks share out the elements *)
Lemma blocks_sum {T} roff nbr coff nbc (E : list (elem T)) :
  sum_between (fun k => length (blocks_at roff nbr coff nbc E (nth k (bids roff nbr coff nbc E) 0))) 0 (length (bids roff nbr coff nbc E)) = length E.
Proof.
  pose proof (concat_groups blk _ (bsorted_ksorted roff nbr coff nbc E)) as Hj.
  assert (Hlen : length (mjoin (per_block blk (fun _ L => L) (bsorted roff nbr coff nbc E))) = length E) by (rewrite Hj; apply bsorted_length).
  rewrite <- Hlen. rewrite <- sum_between_join, per_block_length.
  change (keys blk (bsorted roff nbr coff nbc E)) with (bids roff nbr coff nbc E). unfold sum_between. rewrite Nat.sub_0_r.
  assert (Hgen : forall n a, a + n <= length (bids roff nbr coff nbc E) ->
    sumf (fun k => length (blocks_at roff nbr coff nbc E (nth k (bids roff nbr coff nbc E) 0))) a n =
    sumf (fun k => length (nth k (per_block blk (fun _ L => L) (bsorted roff nbr coff nbc E)) [])) a n).
  { induction n as [|n IHn]; intros a Ha; [done|]. cbn [sumf]. rewrite IHn by lia. f_equal. f_equal.
    symmetry. apply nth_lookup_Some. unfold per_block. change (keys blk (bsorted roff nbr coff nbc E)) with (bids roff nbr coff nbc E).
    rewrite list_lookup_fmap, (nth_some (bids roff nbr coff nbc E) a 0) by lia. done. }
  apply Hgen. lia.
Qed.

(** ** Csbr *)
Section csbr.
  Context {T : Type} `{Scalar T} `{Widths}.
  Context (roff : list nat) (nbr rows : nat) (coff : list nat) (nbc cols : nat) (E : list (elem T)).
  Context (Hr : blocking roff nbr rows) (Hc : blocking coff nbc cols) (HE : in_range rows cols E).
  Context (Hne : E <> []) (Hnr : nbr <= rows) (Hnc : nbc <= cols) (Hids : numbered roff nbr coff nbc E).
  Context (Hrows : rows + 1 < itW) (Hcols : cols < itW) (Hnnz : length E < itW).
  Notation E' := (bsorted roff nbr coff nbc E).
  Notation I := (bids roff nbr coff nbc E).
  Notation lc := (loc roff coff nbc).
  Implicit Types (l : list (elem T)) (e : elem T).

  Definition csbr_blk (id : nat) (L : list (elem T)) : csbr_block :=
    CsbrBlock (rsz roff nbc id) (cntlt (blk <$> E') id) (full (counters ((fun e => row (lc e)) <$> L) (rsz roff nbc id))).
  Definition csbr_blk_done (id : nat) : csbr_block :=
    CsbrBlock (rsz roff nbc id) (cntlt (blk <$> E') id) (full (ptrs ((fun e => row (lc e)) <$> blocks_at roff nbr coff nbc E id) (rsz roff nbc id))).
  Definition csbr_inv l (st : csbr_st (T := T)) : Prop :=
    st = (geo roff coff nbc <$> last (blk <$> l), full (counters ((fun id => id / nbc) <$> keys blk l) nbr),
          part ((fun id => id mod nbc) <$> keys blk l) (length I), part (per_block blk csbr_blk l) (length I),
          part ((fun e => col (lc e)) <$> l) (length E), part (val <$> l) (length E)).

  Lemma csbr_add_step l e r (L : list csbr_block) (B : csbr_block) (K : list nat) (ptr ind : arr nat) : E' = l ++ e :: r ->
    length L < length I -> cb_ptr B = full (counters K (rsz roff nbc (blk e))) -> length K <= length l ->
    csbr_add (length L) (length l) e (Some (geo roff coff nbc (blk e)), ptr, ind, part (L ++ [B]) (length I),
      part ((fun e => col (lc e)) <$> l) (length E), part (val <$> l) (length E)) =
    Ok (Some (geo roff coff nbc (blk e)), ptr, ind,
        part (L ++ [CsbrBlock (cb_rows B) (cb_pos B) (full (counters (K ++ [row (lc e)]) (rsz roff nbc (blk e))))]) (length I),
        part ((fun e => col (lc e)) <$> (l ++ [e])) (length E), part (val <$> (l ++ [e])) (length E)).
  Proof.
    intros HE' HL HK HKl. destruct (prefix_facts roff nbr coff nbc E l e r HE') as (He & Hl & _ & _ & _).
    unfold csbr_add. cbn [use mbind outcome_bind].
    rewrite (check_inside_ok roff nbr rows coff nbc cols E Hr Hc HE e He) by lia. cbn [mbind outcome_bind].
    rewrite part_last. cbn [mbind outcome_bind]. unfold geo. cbn [g_ro g_co].
    destruct (wsub_row roff nbr rows coff nbc cols E Hr Hc HE e He Hrows) as [-> _].
    rewrite (wsub_col roff nbr rows coff nbc cols E Hr Hc HE e He) by lia.
    destruct (loc_inside _ _ _ _ _ _ _ Hr Hc HE e He) as [Hin1 Hin2].
    rewrite HK, incr_step by (unfold loc; cbn [row]; lia). cbn [mbind outcome_bind].
    rewrite part_reset by done. cbn [mbind outcome_bind].
    pose proof (part_set ((fun e => col (lc e)) <$> l) (length E) (col (lc e))) as Hp1.
    rewrite fmap_length in Hp1. rewrite Hp1 by lia. cbn [mbind outcome_bind].
    pose proof (part_set (val <$> l) (length E) (val e)) as Hp2. rewrite fmap_length in Hp2. rewrite Hp2 by lia.
    cbn [mbind outcome_bind]. rewrite !fmap_app. done.
  Qed.
  Lemma csbr_scan :
    wp (block_scan (csbr_new (full roff) (full coff) nbc) csbr_add E'
      (None, new_arr0 0 (S nbr), new_arr (length I), new_arr (length I), new_arr (length E), new_arr (length E))) (csbr_inv E').
  Proof.
    apply block_scan_spec.
    - apply bsorted_ksorted.
    - by eapply blk_bound.
    - by rewrite bsorted_length.
    - unfold csbr_inv. rewrite <- !part_nil, <- counters_nil. done.
    - intros l e s [r HE'] Hks Hl ->. destruct (prefix_facts roff nbr coff nbc E l e r HE') as (He & Hll & Hkl & Hkn & _).
      rewrite (prefix_new l e Hl), app_length in Hkn. cbn [length] in Hkn.
      pose proof (blk_in_bids roff nbr coff nbc E e He) as Hid.
      destruct (bids_range _ _ _ _ _ _ _ Hr Hc HE _ Hid) as (Hid1 & Hid2 & Hid3 & Hid4).
      destruct (geometry_range _ _ _ _ _ _ _ Hr Hc HE _ Hid) as (G1 & _).
      unfold csbr_new. rewrite (block_geometry_ok roff nbr rows coff nbc cols E Hr Hc HE _ Hid) by lia. cbn [mbind outcome_bind].
      rewrite incr_step by first [exact Hid2|rewrite fmap_length; clear -Hkl Hll Hnnz; lia]. cbn [mbind outcome_bind].
      pose proof (part_set ((fun id => id mod nbc) <$> keys blk l) (length I) (blk e mod nbc)) as Hp1.
      rewrite fmap_length in Hp1. rewrite Hp1 by lia. cbn [mbind outcome_bind].
      assert (wadd (g_rs (geo roff coff nbc (blk e))) 1 = rsz roff nbc (blk e) + 1) as ->.
      { unfold wadd, geo. cbn [g_rs]. apply wrap_small. lia. }
      change (g_rs (geo roff coff nbc (blk e))) with (rsz roff nbc (blk e)).
      pose proof (part_set (per_block blk csbr_blk l) (length I) (CsbrBlock (rsz roff nbc (blk e)) (length l) (new_arr0 0 (rsz roff nbc (blk e) + 1)))) as Hp2.
      rewrite per_block_length in Hp2. rewrite Hp2 by lia. cbn [mbind outcome_bind wp].
      pose proof (csbr_add_step l e r (per_block blk csbr_blk l) (CsbrBlock (rsz roff nbc (blk e)) (length l) (new_arr0 0 (rsz roff nbc (blk e) + 1))) []
         (full (counters (((fun id => id / nbc) <$> keys blk l) ++ [blk e / nbc]) nbr)) (part (((fun id => id mod nbc) <$> keys blk l) ++ [blk e mod nbc]) (length I)) HE') as Hadd.
      rewrite per_block_length in Hadd. rewrite Hadd; [|lia| |cbn; lia].
      2:{ cbn [cb_ptr]. rewrite counters_nil. by rewrite Nat.add_1_r. }
      cbn [wp]. unfold csbr_inv. destruct (per_block_new blk csbr_blk l e Hks Hl) as [Hpb Hlt]. rewrite Hpb, (prefix_new l e Hl).
      rewrite !fmap_app. cbn [fmap list_fmap]. rewrite last_snoc. cbn [cb_rows cb_pos app]. assert (csbr_blk (blk e) [e] = CsbrBlock (rsz roff nbc (blk e)) (length l) (full (counters [row (lc e)] (rsz roff nbc (blk e))))) as ->; [|done]. unfold csbr_blk.
      rewrite (pos_new roff nbr coff nbc E l e r HE' Hlt). done.
    - intros l e s [r HE'] Hks Hl ->. destruct (prefix_facts roff nbr coff nbc E l e r HE') as (He & Hll & Hkl & Hkn & _).
      rewrite (prefix_old l e Hl) in Hkn.
      destruct (per_block_old blk csbr_blk l e Hks Hl) as (K & HK & Hp1 & Hp2).
      rewrite Hl. cbn [fmap option_fmap option_map]. rewrite Hp1.
      set (L := (fun j => csbr_blk j (group blk j l)) <$> K) in *.
      assert (HLk : length (keys blk l) - 1 = length L). { unfold L. rewrite HK, app_length, fmap_length. cbn [length]. lia. }
      rewrite HK, app_length in Hkn. cbn [length] in Hkn.
      rewrite HLk. rewrite (csbr_add_step l e r L _ ((fun e => row (lc e)) <$> group blk (blk e) l) _ _ HE').
      + cbn [wp]. unfold csbr_inv. rewrite Hp2, (prefix_old l e Hl). rewrite !fmap_app. cbn [fmap list_fmap]. rewrite last_snoc.
        unfold csbr_blk. rewrite fmap_app. done.
      + unfold L. rewrite fmap_length. lia.
      + done.
      + rewrite fmap_length. apply group_length.
  Qed.

  Definition csbr_matrix : csbr T :=
    Csbr rows cols (length E) nbr nbc (length I) (full roff) (full coff) (full (csbr_blk_done <$> I))
      (full (ptrs (brs roff nbr coff nbc E) nbr)) (full ((fun id => id mod nbc) <$> I))
      (full ((fun e => col (lc e)) <$> E')) (full (val <$> E')).
  Lemma csbr_nonzeros k id : I !! k = Some id -> bk_nonzeros (csbr_view csbr_matrix) k = Ok (length (blocks_at roff nbr coff nbc E id)).
  Proof.
    intros Hk. unfold csbr_view, csbr_matrix. cbn [bk_nonzeros sb_blocks]. rewrite aget_full.
    rewrite (lget_some _ _ (csbr_blk_done id)) by (by rewrite list_lookup_fmap, Hk). cbn [mbind outcome_bind csbr_blk_done cb_ptr cb_rows].
    rewrite ptrs_get by done. f_equal. rewrite cntlt_all; [by rewrite fmap_length|]. apply Forall_fmap, Forall_forall. intros e He.
    apply blocks_at_elem in He as [He Hb]. cbn. rewrite <- Hb. destruct (loc_inside _ _ _ _ _ _ _ Hr Hc HE e He) as [Hin1 Hin2]. lia.
  Qed.
  Lemma Coo_to_Csbr_spec workers : 0 < workers -> 2 * workers < itW -> 2 * (length E + 2) < itW ->
    exists parts, Coo_to_Csbr workers (Coo rows cols E) (full roff) nbr (full coff) nbc = Ok (csbr_matrix, parts, Coo rows cols E') /\
      good_partition nbr (brs roff nbr coff nbc E) parts /\
      partition_init (csbr_view csbr_matrix) workers = Ok parts /\
      forall bi chunks, parts !! bi = Some chunks ->
        partition_spec (fun k => length (blocks_at roff nbr coff nbc E (nth k I 0))) (length E / (2 * workers))
          (cntlt (brs roff nbr coff nbc E) bi) (cntlt (brs roff nbr coff nbc E) (S bi)) chunks.
  Proof.
    intros Hwk1 Hwk2 Hn2.
    assert (Hpos : 0 < nbr /\ 0 < nbc).
    { destruct E as [|e0 l0]; [done|]. apply Forall_inv in HE. destruct HE as [He1 He2].
      pose proof (block_of_spec _ _ _ _ Hr He1) as [? _]. pose proof (block_of_spec _ _ _ _ Hc He2) as [? _]. lia. }
    assert (HI : length I <= length E) by apply bids_length.
    assert (Hnbr : nbr < itW /\ nbc < itW) by lia.
    destruct (partition_init_spec (csbr_view csbr_matrix) nbr (brs roff nbr coff nbc E) eq_refl eq_refl workers
       (fun k => length (blocks_at roff nbr coff nbc E (nth k I 0))) (length E / (2 * workers))) as (parts & Hparts & Hgood & Hspec).
    { by apply min_nnz_ok. }
    { intros k Hk. unfold brs in Hk. rewrite fmap_length in Hk. apply csbr_nonzeros. by apply nth_some. }
    { unfold brs. rewrite fmap_length. rewrite blocks_sum. lia. }
    { unfold brs. rewrite fmap_length. lia. }
    exists parts. split; [|done].
    unfold Coo_to_Csbr. cbn [c_elems c_rows c_cols]. unfold c_nnz. cbn [c_elems].
    rewrite (calculate_block_id_numbered E roff nbr coff nbc rows cols) by (done || lia || apply Hids). cbn [mbind outcome_bind].
    rewrite sort_elements_blocks_spec. cbn [mbind outcome_bind]. fold (bsorted roff nbr coff nbc E).
    rewrite count_bids by done. cbn [mbind outcome_bind].
    rewrite (check_blocking_ok roff nbr rows coff nbc cols Hr Hc Hnr Hnc). cbn [mbind outcome_bind].
    assert (wadd nbr 1 = S nbr) as -> by (unfold wadd; rewrite wrap_small; lia).
    pose proof csbr_scan as Hscan. apply wp_exists in Hscan as (st & Hst & ->). rewrite Hst. clear Hst. cbn [mbind outcome_bind].
    change (keys blk E') with I.
    rewrite !(part_full_len _ (length E)) by (by rewrite fmap_length, bsorted_length).
    rewrite (part_full_len ((fun id => id mod nbc) <$> I)) by apply fmap_length.
    rewrite (part_full_len (per_block blk csbr_blk E')) by apply per_block_length.
    assert (HpbI : per_block blk csbr_blk E' = (fun id => csbr_blk id (blocks_at roff nbr coff nbc E id)) <$> I) by done.
    rewrite HpbI.
    match goal with |- context [for_range 0 (length I) ?step (full ?l)] =>
      pose proof (amap_loop step l (csbr_blk_done <$> I)) as Hloop end.
    rewrite !fmap_length in Hloop. rewrite Hloop; clear Hloop; [|done|].
    2:{ intros i a a' r Ha Ha' Hg. rewrite list_lookup_fmap in Ha, Ha'. destruct (I !! i) as [id|] eqn:Hid; [|done].
        injection Ha as <-. injection Ha' as <-. rewrite Hg. cbn [mbind outcome_bind csbr_blk cb_ptr cb_rows cb_pos].
        rewrite prefix_sum_spec; [done|]. rewrite fmap_length. pose proof (group_length blk id E') as Hgl.
        rewrite bsorted_length in Hgl. unfold blocks_at. lia. }
    cbn [mbind outcome_bind]. rewrite prefix_sum_spec by (rewrite fmap_length; lia). cbn [mbind outcome_bind].
    rewrite ptrs_get by lia. cbn [mbind outcome_bind].
    rewrite cntlt_all; [|by eapply brs_range]. rewrite fmap_length, Nat.eqb_refl. cbn [assert_ mbind outcome_bind].
    change (Csbr rows cols (length E) nbr nbc (length I) (full roff) (full coff) (full (csbr_blk_done <$> I)) _ _ _ _) with csbr_matrix.
    rewrite Hparts. done.
  Qed.

  (** every block computes its rows *)
  Lemma csbr_block_does x k id : cols <= length x -> I !! k = Some id ->
    block_does (csbr_view csbr_matrix) x k (rsz roff nbc id) (fun r => row_acc (blocks_at roff nbr coff nbc E id) x (ro roff nbc id + r)).
  Proof.
    intros Hx Hk b o. unfold one_block, csbr_view, csbr_matrix. cbn [bk_ind bk_coff bk_spmv sb_ind sb_coff sb_blocks sb_colind sb_val].
    assert (Hid : id ∈ I) by (by eapply elem_of_list_lookup_2).
    destruct (bids_range _ _ _ _ _ _ _ Hr Hc HE id Hid) as (_ & H1 & H2 & _).
    destruct (geometry_range _ _ _ _ _ _ _ Hr Hc HE id Hid) as (G1 & G2 & _).
    eapply performs_lift; [rewrite aget_full; apply lget_some; rewrite list_lookup_fmap, Hk; reflexivity|].
    eapply performs_lift; [apply (blocking_get _ _ _ _ Hc); lia|]. fold (co coff nbc id).
    eapply performs_lift; [rewrite aget_full; apply lget_some; rewrite list_lookup_fmap, Hk; reflexivity|].
    cbn [csbr_blk_done cb_ptr cb_pos cb_rows].
    set (L := lc <$> blocks_at roff nbr coff nbc E id).
    assert (HrowL : (fun e => row (lc e)) <$> blocks_at roff nbr coff nbc E id = row <$> L) by (unfold L; by rewrite <- list_fmap_compose).
    rewrite HrowL.
    eapply performs_ext; [|eapply (performs_spmv_csr _ 0 _ _ _ _ (fun i => bfilter (in_row i) L) (csz coff nbc id)); [|intros i Hi|lia]].
    - intros r y Hrr. cbv beta. change (fold_left (accum (drop (co coff nbc id) x)) (bfilter (in_row r) L) y) with (row_acc L (drop (co coff nbc id) x) r y).
      unfold L. by eapply loc_row_acc.
    - apply (csr_rep_at L _ 0).
      + by apply blocks_at_sorted.
      + intros i Hi. by rewrite ptrs_get.
      + intros j e He. unfold L in He. rewrite list_lookup_fmap in He. destruct (blocks_at roff nbr coff nbc E id !! j) as [e0|] eqn:He0; [|done].
        injection He as <-. apply blocks_at_lookup in He0. rewrite Nat.add_0_l.
        rewrite !aget_full. split; apply lget_some; rewrite list_lookup_fmap, He0; done.
    - apply Forall_forall. intros e He. apply elem_of_list_In, filter_In in He as [He _]. apply elem_of_list_In in He.
      pose proof (loc_range _ _ _ _ _ _ _ Hr Hc HE id) as Hlr. specialize (Hlr Hid). rewrite Forall_forall in Hlr. by apply Hlr in He as [_ ?].
  Qed.
  Lemma csbr_balanced parts x b y : cols <= length x -> length y = rows ->
    all_schedules (csbr_spmv csbr_matrix parts true x b) (heap_of b y) tt (heap_of b (spmv_by_column E x y)).
  Proof.
    intros Hx Hy. unfold csbr_spmv. eapply (blocked_balanced roff nbr rows coff nbc cols E Hr Hc HE); eauto; try done; [lia| |].
    - intros bi Hbi. by apply (blocking_get _ _ _ _ Hr).
    - intros k id. by apply csbr_block_does.
  Qed.
  Lemma csbr_unbalanced parts x b y : cols <= length x -> length y = rows ->
    good_partition nbr (brs roff nbr coff nbc E) parts ->
    all_schedules (csbr_spmv csbr_matrix parts false x b) (heap_of b y) tt (heap_of b (spmv_chunked roff nbr coff nbc E x parts y)).
  Proof.
    intros Hx Hy Hg. unfold csbr_spmv. eapply (blocked_unbalanced roff nbr rows coff nbc E Hr); eauto; try done; [lia| |].
    - intros bi Hbi. by apply (blocking_get _ _ _ _ Hr).
    - intros k id. by apply csbr_block_does.
  Qed.
End csbr.
