(** NumberProof.v: the blocked constructors on any list of elements whose block numbers stand for
    blocks that exist, whether or not the elements lie in those blocks (C98): numbers computed modulo
    the width of the index type, elements outside the matrix. *)
From Verif Require Import CsbrProof Csbr2Proof CgbrProof RangeProof WideProof OutsideProof.
From Coq Require Import ZifyNat ZifyBool.

Section placed.
  Context {T : Type} `{Scalar T} `{Widths}.
  Context (roff : list nat) (nbr rows : nat) (coff : list nat) (nbc cols : nat) (F : list (elem T)).
  Context (Hr : blocking roff nbr rows) (Hc : blocking coff nbc cols).
  Context (P1 : 0 < nbr) (P2 : 0 < nbc) (Hnr : nbr <= rows) (Hnc : nbc <= cols) (Hrows : rows + 1 < itW) (Hcols : cols < itW) (Hnnz : length F < itW).
  Context (Hks : ksorted blk F) (Hblk : forall e, e ∈ F -> blk e / nbc < nbr /\ blk e mod nbc < nbc).
  Notation I := (keys blk F).
  Implicit Types (l : list (elem T)) (e : elem T).
  Notation geo := (geo roff coff nbc).

  Lemma geometry_any id : id / nbc < nbr -> id mod nbc < nbc ->
    block_geometry (full roff) (full coff) nbc id = Ok (id / nbc, id mod nbc, geo id) /\
    ro roff nbc id + rsz roff nbc id <= rows /\ co coff nbc id + csz coff nbc id <= cols.
  Proof using Hr Hc P2 Hrows Hcols.
    clear P1 Hnr Hnc Hnnz Hks Hblk.
    intros H1 H2. unfold block_geometry. rewrite div_ok, mod_ok by done. cbn [mbind outcome_bind].
    pose proof (blocking_get _ _ _ (id / nbc) Hr ltac:(lia)) as A1. pose proof (blocking_get _ _ _ (S (id / nbc)) Hr ltac:(lia)) as A2.
    pose proof (blocking_get _ _ _ (id mod nbc) Hc ltac:(lia)) as A3. pose proof (blocking_get _ _ _ (S (id mod nbc)) Hc ltac:(lia)) as A4.
    pose proof (blocking_mono _ _ _ (id / nbc) (S (id / nbc)) Hr ltac:(lia) ltac:(lia)) as M1.
    pose proof (blocking_mono _ _ _ (id mod nbc) (S (id mod nbc)) Hc ltac:(lia) ltac:(lia)) as M2.
    pose proof (blocking_le _ _ _ (S (id / nbc)) Hr ltac:(lia)) as L1. pose proof (blocking_le _ _ _ (S (id mod nbc)) Hc ltac:(lia)) as L2.
    replace (id / nbc + 1) with (S (id / nbc)) by lia. replace (id mod nbc + 1) with (S (id mod nbc)) by lia.
    rewrite A1, A2, A3, A4. cbn [mbind outcome_bind]. rewrite !wsub_small by lia.
    unfold CsbrProof.geo, ro, rsz, co, csz. replace (id / nbc + 1) with (S (id / nbc)) by lia. replace (id mod nbc + 1) with (S (id mod nbc)) by lia.
    split; [done|]. lia.
  Qed.
  Lemma geo_rs id : g_rs (geo id) = rsz roff nbc id. Proof. done. Qed.
  Lemma check_inside_any e id : id / nbc < nbr -> id mod nbc < nbc ->
    check_inside (geo id) e = Abort \/
    (check_inside (geo id) e = Ok tt /\ ro roff nbc id <= row e < ro roff nbc id + rsz roff nbc id /\ co coff nbc id <= col e < co coff nbc id + csz coff nbc id).
  Proof.
    intros H1 H2. destruct (geometry_any id H1 H2) as (_ & G1 & G2). unfold check_inside, CsbrProof.geo, wadd. cbn [g_ro g_rs g_co g_cs].
    rewrite !wrap_small by lia.
    destruct (Nat.leb_spec (ro roff nbc id) (row e)); [|by left]. cbn [assert_ mbind outcome_bind].
    destruct (Nat.ltb_spec (row e) (ro roff nbc id + rsz roff nbc id)); [|by left]. cbn [assert_ mbind outcome_bind].
    destruct (Nat.leb_spec (co coff nbc id) (col e)); [|by left]. cbn [assert_ mbind outcome_bind].
    destruct (Nat.ltb_spec (col e) (co coff nbc id + csz coff nbc id)); [|by left]. right. split; [done|]. lia.
  Qed.
  (** every element lies in the block its number stands for *)
  Definition placed e : Prop := in_block roff (blk e / nbc) (row e) /\ in_block coff (blk e mod nbc) (col e).
  Definition inside l : Prop := Forall placed l.
  Lemma inside_placed e : ro roff nbc (blk e) <= row e < ro roff nbc (blk e) + rsz roff nbc (blk e) -> co coff nbc (blk e) <= col e < co coff nbc (blk e) + csz coff nbc (blk e) -> placed e.
  Proof using Type. clear - e. unfold placed, in_block, ro, rsz, co, csz. lia. Qed.
  Lemma prefix_F l e r : F = l ++ e :: r -> e ∈ F /\ length l < length F /\ length (keys blk l) <= length l /\ length (keys blk (l ++ [e])) <= length I.
  Proof using Type.
    clear - F. intros HF. split; [rewrite HF; set_solver|]. split; [rewrite HF, app_length; cbn; lia|].
    split; [unfold keys; etrans; [apply ids_length|]; by rewrite fmap_length|].
    rewrite HF. replace (l ++ e :: r) with ((l ++ [e]) ++ r) by (by rewrite <- app_assoc). apply keys_prefix.
  Qed.
  Lemma keys_F : length I <= length F.
  Proof using Type. clear - F. unfold keys. etrans; [apply ids_length|]. by rewrite fmap_length. Qed.

  (** *** Csbr *)
  Definition csbr_any l (st : option (csbr_st (T := T))) : Prop :=
    match st with
    | None => True
    | Some (g, ptr, ind, blocks, ci, v) =>
        g = geo <$> last (blk <$> l) /\ set_arr ptr (nbr + 1) /\ length ind = length I /\ length blocks = length I /\
        (forall id, last (blk <$> l) = Some id -> exists B, blocks !! (length (keys blk l) - 1) = Some (Some B) /\ set_arr (cb_ptr B) (rsz roff nbc id + 1)) /\
        length ci = length F /\ length v = length F /\ inside l
    end.
  Lemma csbr_add_any l e k (ptr ind : arr nat) (blocks : arr csbr_block) (ci : arr nat) (v : arr T) (B : csbr_block) : e ∈ F -> length l < length F ->
    set_arr ptr (nbr + 1) -> length ind = length I -> length blocks = length I -> blocks !! k = Some (Some B) -> set_arr (cb_ptr B) (rsz roff nbc (blk e) + 1) ->
    length ci = length F -> length v = length F -> inside l -> k = length (keys blk (l ++ [e])) - 1 ->
    wp (tame (csbr_add k (length l) e (Some (geo (blk e)), ptr, ind, blocks, ci, v))) (csbr_any (l ++ [e])).
  Proof.
    intros He Hl Hptr Hind Hblocks HB Hset Hci Hv Hin Hk. destruct (Hblk e He) as (B2 & B3).
    unfold csbr_add. cbn [use mbind outcome_bind].
    destruct (check_inside_any e (blk e) B2 B3) as [-> | (-> & R3 & R4)]; [done|]. cbn [mbind outcome_bind].
    unfold aget. rewrite HB. cbn [mbind outcome_bind]. destruct (geometry_any (blk e) B2 B3) as (_ & G1 & _).
    rewrite (wsub_small (row e)) by (unfold CsbrProof.geo; cbn [g_ro]; lia). unfold wadd. rewrite (wrap_small (row e - _ + 1)) by (unfold CsbrProof.geo; cbn [g_ro]; lia).
    destruct (incr_set _ _ (row e - g_ro (geo (blk e)) + 1) Hset) as (rp & -> & Hrp); [unfold CsbrProof.geo; cbn [g_ro]; lia|]. cbn [mbind outcome_bind].
    pose proof (lookup_lt_Some _ _ _ HB) as Hkl.
    rewrite (aset_ok blocks) by done. cbn [mbind outcome_bind].
    rewrite (aset_ok ci) by lia. cbn [mbind outcome_bind]. rewrite (aset_ok v) by lia. cbn [mbind outcome_bind tame wp csbr_any].
    rewrite fmap_app. cbn [fmap list_fmap]. rewrite last_snoc. cbn [fmap option_fmap option_map].
    split; [done|]. split; [done|]. split; [done|]. split; [by rewrite insert_length|]. split.
    { intros id [= <-]. rewrite <- Hk. eexists. rewrite list_lookup_insert by done. split; [done|]. done. }
    split; [by rewrite insert_length|]. split; [by rewrite insert_length|]. apply Forall_app. split; [done|]. apply Forall_singleton. by apply inside_placed.
  Qed.
  Context (Hfirst : forall e, F !! 0 = Some e -> blk e <> itW - 1).
  Lemma csbr_scan_any :
    wp (block_scan (tame_new (csbr_new (full roff) (full coff) nbc)) (tame_add csbr_add) F
      (Some (None, new_arr0 0 (wadd nbr 1), new_arr (length I), new_arr (length I), new_arr (length F), new_arr (length F)))) (csbr_any F).
  Proof.
    apply block_scan_spec.
    - exact Hks.
    - exact Hfirst.
    - exact Hnnz.
    - unfold csbr_any. cbn. unfold wadd. rewrite wrap_small by lia. unfold new_arr. rewrite !replicate_length.
      repeat (split; [first [done|apply new_arr0_set]|]). constructor.
    - intros l e [s|] [r HF'] Hks' Hl Hs; [|done]. destruct s as [[[[[g ptr] ind] blocks] ci] v]. destruct Hs as (-> & Hptr & Hind & Hbl & Hlast & Hci & Hv & Hin).
      destruct (prefix_F l e r HF') as (He & Hll & Hkl & Hkn).
      rewrite (prefix_new l e Hl), app_length in Hkn. cbn [length] in Hkn.
      destruct (Hblk e He) as (B2 & B3). destruct (geometry_any (blk e) B2 B3) as (HG & G1 & _).
      cbn [tame_new]. unfold csbr_new. rewrite HG. cbn [mbind outcome_bind].
      destruct (incr_set _ _ (blk e / nbc + 1) Hptr) as (ptr' & -> & Hptr'); [lia|]. cbn [mbind outcome_bind].
      rewrite (aset_ok ind) by lia. cbn [mbind outcome_bind]. rewrite (aset_ok blocks) by lia. cbn [mbind outcome_bind tame wp tame_add].
      eapply csbr_add_any; try done.
      + by rewrite insert_length.
      + by rewrite insert_length.
      + rewrite list_lookup_insert by lia. done.
      + cbn [cb_ptr]. rewrite geo_rs. unfold wadd. rewrite wrap_small by lia. apply new_arr0_set.
      + rewrite (prefix_new l e Hl), app_length. cbn [length]. lia.
    - intros l e [s|] [r HF'] Hks' Hl Hs; [|done]. destruct s as [[[[[g ptr] ind] blocks] ci] v]. destruct Hs as (-> & Hptr & Hind & Hbl & Hlast & Hci & Hv & Hin).
      destruct (prefix_F l e r HF') as (He & Hll & Hkl & Hkn).
      rewrite Hl. cbn [fmap option_fmap option_map tame_add]. destruct (Hlast _ Hl) as (B & HB & Hset).
      eapply csbr_add_any; try done. by rewrite (prefix_old l e Hl).
  Qed.
  (** *** Csbr2 *)
  Definition csbr2_any l (st : option (csbr2_st (T := T))) : Prop :=
    match st with
    | None => True
    | Some (g, ptr, rps, ci, v) =>
        g = geo <$> last (blk <$> l) /\ set_arr ptr (nbr + 1) /\ length rps = length I /\
        (forall id, last (blk <$> l) = Some id -> exists rp, rps !! (length (keys blk l) - 1) = Some (Some rp) /\ set_arr rp (rsz roff nbc id + 1)) /\
        length ci = length F /\ length v = length F /\ inside l
    end.
  Lemma csbr2_add_any l e k (ptr : arr nat) (rps : arr (arr nat)) (ci : arr nat) (v : arr T) (rp : arr nat) : e ∈ F -> length l < length F ->
    set_arr ptr (nbr + 1) -> length rps = length I -> rps !! k = Some (Some rp) -> set_arr rp (rsz roff nbc (blk e) + 1) ->
    length ci = length F -> length v = length F -> inside l -> k = length (keys blk (l ++ [e])) - 1 ->
    wp (tame (csbr2_add k (length l) e (Some (geo (blk e)), ptr, rps, ci, v))) (csbr2_any (l ++ [e])).
  Proof.
    intros He Hl Hptr Hblocks HB Hset Hci Hv Hin Hk. destruct (Hblk e He) as (B2 & B3).
    unfold csbr2_add. cbn [use mbind outcome_bind].
    destruct (check_inside_any e (blk e) B2 B3) as [-> | (-> & R3 & R4)]; [done|]. cbn [mbind outcome_bind].
    unfold aget. rewrite HB. cbn [mbind outcome_bind]. destruct (geometry_any (blk e) B2 B3) as (_ & G1 & _).
    rewrite (wsub_small (row e)) by (unfold CsbrProof.geo; cbn [g_ro]; lia). unfold wadd. rewrite (wrap_small (row e - _ + 1)) by (unfold CsbrProof.geo; cbn [g_ro]; lia).
    destruct (incr_set _ _ (row e - g_ro (geo (blk e)) + 1) Hset) as (rp' & -> & Hrp); [unfold CsbrProof.geo; cbn [g_ro]; lia|]. cbn [mbind outcome_bind].
    pose proof (lookup_lt_Some _ _ _ HB) as Hkl.
    rewrite (aset_ok rps) by done. cbn [mbind outcome_bind].
    rewrite (aset_ok ci) by lia. cbn [mbind outcome_bind]. rewrite (aset_ok v) by lia. cbn [mbind outcome_bind tame wp csbr2_any].
    rewrite fmap_app. cbn [fmap list_fmap]. rewrite last_snoc. cbn [fmap option_fmap option_map].
    split; [done|]. split; [done|]. split; [by rewrite insert_length|]. split.
    { intros id [= <-]. rewrite <- Hk. eexists. rewrite list_lookup_insert by done. split; [done|]. done. }
    split; [by rewrite insert_length|]. split; [by rewrite insert_length|]. apply Forall_app. split; [done|]. apply Forall_singleton. by apply inside_placed.
  Qed.
  Lemma csbr2_scan_any :
    wp (block_scan (tame_new (csbr2_new (full roff) (full coff) nbc)) (tame_add csbr2_add) F
      (Some (None, new_arr0 0 (wadd nbr 1), new_arr (length I), new_arr (length F), new_arr (length F)))) (csbr2_any F).
  Proof.
    apply block_scan_spec.
    - exact Hks.
    - exact Hfirst.
    - exact Hnnz.
    - unfold csbr2_any. cbn. unfold wadd. rewrite wrap_small by lia. unfold new_arr. rewrite !replicate_length.
      repeat (split; [first [done|apply new_arr0_set]|]). constructor.
    - intros l e [s|] [r HF'] Hks' Hl Hs; [|done]. destruct s as [[[[g ptr] rps] ci] v]. destruct Hs as (-> & Hptr & Hbl & Hlast & Hci & Hv & Hin).
      destruct (prefix_F l e r HF') as (He & Hll & Hkl & Hkn).
      rewrite (prefix_new l e Hl), app_length in Hkn. cbn [length] in Hkn.
      destruct (Hblk e He) as (B2 & B3). destruct (geometry_any (blk e) B2 B3) as (HG & G1 & _).
      cbn [tame_new]. unfold csbr2_new. rewrite HG. cbn [mbind outcome_bind].
      destruct (incr_set _ _ (blk e / nbc + 1) Hptr) as (ptr' & -> & Hptr'); [lia|]. cbn [mbind outcome_bind].
      rewrite (aset_ok rps) by lia. cbn [mbind outcome_bind tame wp tame_add].
      eapply csbr2_add_any; try done.
      + by rewrite insert_length.
      + rewrite list_lookup_insert by lia. done.
      + rewrite geo_rs. unfold wadd. rewrite wrap_small by lia. apply new_arr0_set.
      + rewrite (prefix_new l e Hl), app_length. cbn [length]. lia.
    - intros l e [s|] [r HF'] Hks' Hl Hs; [|done]. destruct s as [[[[g ptr] rps] ci] v]. destruct Hs as (-> & Hptr & Hbl & Hlast & Hci & Hv & Hin).
      destruct (prefix_F l e r HF') as (He & Hll & Hkl & Hkn).
      rewrite Hl. cbn [fmap option_fmap option_map tame_add]. destruct (Hlast _ Hl) as (B & HB & Hset).
      eapply csbr2_add_any; try done. by rewrite (prefix_old l e Hl).
  Qed.
End placed.

(** *** Cgbr and Cgbr2: the elements of a block are asserted to be inside it before the block is made *)
Section fill_placed.
  Context {T : Type} `{Scalar T} `{Widths}.
  Context (roff : list nat) (nbr rows : nat) (coff : list nat) (nbc cols : nat) (F : list (elem T)).
  Context (Hr : blocking roff nbr rows) (Hc : blocking coff nbc cols).
  Context (P1 : 0 < nbr) (P2 : 0 < nbc) (Hnr : nbr <= rows) (Hnc : nbc <= cols) (Hrows : rows + 1 < itW) (Hcols : cols < itW) (Hnnz : length F < itW).
  Context (Hks : ksorted blk F) (Hblk : forall e, e ∈ F -> blk e / nbc < nbr /\ blk e mod nbc < nbc).
  Context (make : factory (T := T)).
  Implicit Types (P G R : list (elem T)).
  Notation I := (keys blk F).
  Notation geo := (geo roff coff nbc).
  Definition at_block (id : nat) : list (elem T) := group blk id F.
  Definition flocal (id : nat) : list (elem T) := BlocksProof.loc roff coff nbc <$> at_block id.
  Notation placed := (placed roff coff nbc).
  Lemma all_F : mjoin (at_block <$> I) = F.
  Proof using Hks. exact (concat_groups blk F Hks). Qed.
  Lemma at_block_elem id e : e ∈ at_block id -> e ∈ F /\ blk e = id.
  Proof using Type. unfold at_block, group. intros [H1 H2]%elem_of_list_In%filter_In. apply elem_of_list_In in H1. split; [done|]. by apply Nat.eqb_eq. Qed.
  Context (Hmake : forall id, id ∈ I -> in_range (rsz roff nbc id) (csz coff nbc id) (flocal id) ->
     make (flocal id) (rsz roff nbc id) (csz coff nbc id) = Abort \/
     exists B ty L, make (flocal id) (rsz roff nbc id) (csz coff nbc id) = Ok (B, ty, L) /\ length L = length (flocal id) /\ ty < MATRIX_TYPE_NUM).

  Definition fill_any (K1 K2 : list nat) (st : fill_st (T := T)) : Prop :=
    let '(i, k, E0, ptr, ind, blocks, tb, tn) := st in
    exists P, E0 = P ++ mjoin (at_block <$> K2) /\ length P = length (mjoin (at_block <$> K1)) /\ i = length P /\ k = length K1 /\
      set_arr ptr (nbr + 1) /\ length ind = length I /\ length blocks = length I /\ set_arr tb MATRIX_TYPE_NUM /\ set_arr tn MATRIX_TYPE_NUM /\
      Forall (fun id => Forall placed (at_block id)) K1.
  Lemma fill_any_step K1 id K2 st : I = K1 ++ id :: K2 -> fill_any K1 (id :: K2) st ->
    fill_body make (full roff) (full coff) nbc st = Abort \/
    exists st', fill_body make (full roff) (full coff) nbc st = Ok st' /\ fill_any (K1 ++ [id]) K2 st'.
  Proof.
    intros HI. assert (Hid : id ∈ I) by (rewrite HI; set_solver).
    destruct st as [[[[[[[i k] E0] ptr] ind] blocks] tb] tn].
    intros (P & -> & HP & -> & -> & Hptr & Hind & Hbl & Htb & Htn & Hin).
    assert (Hlen : length (mjoin (at_block <$> K1)) + (length (at_block id) + length (mjoin (at_block <$> K2))) = length F).
    { rewrite <- (all_F) at 1. rewrite HI, fmap_app, join_app, app_length. cbn. by rewrite app_length. }
    assert (HG : exists e, e ∈ F /\ blk e = id). { apply keys_elem in Hid as (e & He & Hb). by exists e. }
    destruct HG as (e1 & He1 & Hb1).
    assert (HG : at_block id <> []).
    { intros Hn. assert (e1 ∈ at_block id) as Hin1.
      { unfold at_block, group. apply elem_of_list_In, filter_In. split; [by apply elem_of_list_In|]. unfold has. by rewrite Hb1, Nat.eqb_refl. }
      rewrite Hn in Hin1. by apply elem_of_nil in Hin1. }
    assert (Hall : Forall (fun e => blk e = id) (at_block id)).
    { apply Forall_forall. intros e He. by apply at_block_elem in He as [_ ?]. }
    assert (HR : forall e, mjoin (at_block <$> K2) !! 0 = Some e -> blk e <> id).
    { intros e He Hb. apply elem_of_list_lookup_2 in He. apply elem_of_list_join in He as (L & He & HL).
      apply elem_of_list_fmap in HL as (k & -> & Hk). apply at_block_elem in He as [_ He].
      pose proof (increasing_NoDup _ (keys_sorted blk F Hks)) as Hnd. rewrite HI in Hnd.
      apply NoDup_app in Hnd as (_ & _ & Hnd). inversion_clear Hnd. congruence. }
    assert (Hk1 : length K1 < length I) by (rewrite HI, app_length; cbn; lia).
    pose proof (keys_F F) as HIl.
    destruct (Hblk e1 He1) as (B2 & B3). rewrite Hb1 in B2, B3.
    assert (Hag : block_geometry (full roff) (full coff) nbc id = Ok (id / nbc, id mod nbc, geo id) /\
      ro roff nbc id + rsz roff nbc id <= rows /\ co coff nbc id + csz coff nbc id <= cols) by (eapply geometry_any; eassumption).
    destruct Hag as (HGeo & G1 & G2).
    unfold fill_body. cbn [fmap list_fmap mjoin list_join].
    change (mjoin (at_block id :: (at_block <$> K2))) with (at_block id ++ mjoin (at_block <$> K2)).
    fold (mjoin (at_block <$> K2)). set (R := mjoin (at_block <$> K2)) in *.
    destruct (at_block id) as [|e0 G0] eqn:HG0; [done|].
    rewrite (lget_some _ _ e0) by (rewrite lookup_app_r, Nat.sub_diag by lia; done). cbn [mbind outcome_bind].
    rewrite <- HG0 in *. assert (blk e0 = id) as Hb0.
    { rewrite HG0 in Hall. by apply Forall_inv in Hall. }
    rewrite Hb0. rewrite scan_block_spec by (done || (rewrite !app_length; lia)). cbn [mbind outcome_bind].
    rewrite HGeo. cbn [mbind outcome_bind].
    destruct (incr_set ptr (nbr + 1) (id / nbc + 1) Hptr) as (ptr' & -> & Hptr'); [lia|]. cbn [mbind outcome_bind].
    rewrite (aset_ok ind) by lia. cbn [mbind outcome_bind].
    set (lc := BlocksProof.loc (T := T) roff coff nbc).
    assert (Hchk : forall e, e ∈ at_block id -> check_inside (geo id) e = Abort \/
       (check_inside (geo id) e = Ok tt /\ placed e /\ Elem (wsub (row e) (g_ro (geo id))) (wsub (col e) (g_co (geo id))) (val e) (blk e) = lc e /\
        row (lc e) < rsz roff nbc id /\ col (lc e) < csz coff nbc id)).
    { intros e He. apply at_block_elem in He as [_ He]. unfold check_inside, CsbrProof.geo, wadd. cbn [g_ro g_rs g_co g_cs].
      rewrite !wrap_small by lia.
      destruct (Nat.leb_spec (ro roff nbc id) (row e)); [|by left]. cbn [assert_ mbind outcome_bind].
      destruct (Nat.ltb_spec (row e) (ro roff nbc id + rsz roff nbc id)); [|by left]. cbn [assert_ mbind outcome_bind].
      destruct (Nat.leb_spec (co coff nbc id) (col e)); [|by left]. cbn [assert_ mbind outcome_bind].
      destruct (Nat.ltb_spec (col e) (co coff nbc id + csz coff nbc id)); [|by left]. right. split; [done|]. split; [apply inside_placed; rewrite He; lia|].
      unfold lc, BlocksProof.loc. rewrite He. cbn [row col]. rewrite !wsub_small by lia. split; [done|]. lia. }
    destruct (Forall_Exists_dec (fun e => ~ check_inside (geo id) e = Abort) (fun e => check_inside (geo id) e = Abort)
      (fun e => abort_dec (check_inside (geo id) e)) (at_block id)) as [HX|HX]; cycle 1.
    { left. rewrite (rebase_abort P (at_block id) R (geo id) lc); [done| |done].
      apply Forall_forall. intros e He. destruct (Hchk e He) as [|(? & ? & ? & ?)]; [by left|by right]. }
    assert (Hok : forall e, e ∈ at_block id -> check_inside (geo id) e = Ok tt /\ placed e /\ Elem (wsub (row e) (g_ro (geo id))) (wsub (col e) (g_co (geo id))) (val e) (blk e) = lc e /\
        row (lc e) < rsz roff nbc id /\ col (lc e) < csz coff nbc id).
    { intros e He. destruct (Hchk e He) as [Ha|Ho]; [|done]. exfalso. rewrite Forall_forall in HX. by apply (HX e). }
    rewrite (rebase_spec P (at_block id) R _ lc).
    2:{ apply Forall_forall. intros e He. by destruct (Hok e He) as (? & ? & ? & ?). }
    cbn [mbind outcome_bind].
    replace (length P + length (at_block id) - length P) with (length (at_block id)) by lia.
    assert (Hs : slice (length P) (length (at_block id)) (P ++ (lc <$> at_block id) ++ R) = flocal id).
    { unfold slice. rewrite drop_app. rewrite take_app_alt; [done|]. by rewrite fmap_length. }
    rewrite Hs. unfold CsbrProof.geo. cbn [g_rs g_cs].
    destruct (Hmake id Hid) as [-> | (B & ty & L & -> & HL & Hty)]; [| by left |].
    { unfold in_range, flocal. apply Forall_fmap, Forall_forall. intros e He. by destruct (Hok e He) as (? & ? & ? & ?). }
    cbn [mbind outcome_bind]. rewrite (aset_ok blocks) by lia. cbn [mbind outcome_bind].
    destruct (incr_set tb _ ty Htb Hty) as (tb' & -> & Htb'). cbn [mbind outcome_bind].
    destruct Htn as (ln & -> & Hln). destruct (lookup_lt_is_Some_2 ln ty) as [v Hv]; [lia|].
    rewrite aget_full, (lget_some _ _ _ Hv). cbn [mbind outcome_bind]. rewrite aset_full by lia. cbn [mbind outcome_bind].
    right. eexists. split; [reflexivity|]. unfold fill_any.
    assert (Hdrop : drop (length P + length (at_block id)) (P ++ (lc <$> at_block id) ++ R) = R).
    { rewrite app_assoc. apply drop_app_alt. by rewrite app_length, fmap_length. }
    rewrite Hdrop, take_app. exists (P ++ L). split; [by rewrite <- app_assoc|].
    unfold flocal in HL. rewrite fmap_length in HL.
    rewrite fmap_app, join_app, !app_length. cbn [fmap list_fmap length]. cbn [mjoin list_join]. rewrite app_nil_r.
    split; [lia|]. split; [lia|]. split; [apply wrap_small; lia|]. split; [done|]. split; [by rewrite insert_length|]. split; [by rewrite insert_length|].
    split; [done|]. split; [by eexists; split; [done|]; rewrite insert_length|].
    apply Forall_app. split; [done|]. apply Forall_singleton. apply Forall_forall. intros e He. by destruct (Hok e He) as (? & ? & ? & ?).
  Qed.
  Lemma fill_any_while fuel : forall K1 K2 st, I = K1 ++ K2 -> fill_any K1 K2 st -> length K2 < fuel ->
    let r := while_ fuel (fun '(i, _, E, _, _, _, _, _) => Ok (i <? length E)) (fill_body make (full roff) (full coff) nbc) st in
    r = Abort \/ Forall placed F.
  Proof.
    induction fuel as [|f IH]; intros K1 K2 st HI Hst Hf; [lia|]. cbn [while_]. destruct st as [[[[[[[i k] E0] ptr] ind] blocks] tb] tn] eqn:Est.
    destruct K2 as [|id K2].
    - right. rewrite app_nil_r in HI. destruct Hst as (P & _ & _ & _ & _ & _ & _ & _ & _ & _ & Hin).
      rewrite <- HI in Hin. rewrite <- all_F. 
      apply Forall_forall. intros e (L & He & HL)%elem_of_list_join. apply elem_of_list_fmap in HL as (id & -> & Hid).
      rewrite Forall_forall in Hin. specialize (Hin id Hid). rewrite Forall_forall in Hin. by apply Hin.
    - assert (Hlt : (i <? length E0) = true).
      { destruct Hst as (P & -> & HP & -> & _). apply Nat.ltb_lt. rewrite app_length. cbn.
        change (mjoin (at_block id :: (at_block <$> K2))) with (at_block id ++ mjoin (at_block <$> K2)). rewrite app_length.
        assert (id ∈ I) as Hid by (rewrite HI; set_solver). apply keys_elem in Hid as (e & He & Hb).
        assert (e ∈ at_block id) as Hin.
        { unfold at_block, group. apply elem_of_list_In, filter_In. split; [by apply elem_of_list_In|]. unfold has. by rewrite Hb, Nat.eqb_refl. }
        destruct (at_block id); [by apply elem_of_nil in Hin|cbn; lia]. }
      rewrite Hlt. cbn [mbind outcome_bind].
      destruct (fill_any_step K1 id K2 _ HI Hst) as [-> | (st' & -> & Hst')]; [by left|]. cbn [mbind outcome_bind].
      apply (IH (K1 ++ [id]) K2); [by rewrite <- app_assoc|done|cbn in Hf; lia].
  Qed.
  Lemma fill_placed (B : coo T) : ~ Forall placed F ->
    cgbr_fill make B F (full roff) nbr (full coff) nbc (length I) = Abort.
  Proof.
    intros Hout. unfold cgbr_fill, fill_blocks.
    destruct (fill_any_while (S (length F)) [] I (0, 0, F, new_arr0 0 (wadd nbr 1), new_arr (length I), new_arr (length I), new_arr0 0 MATRIX_TYPE_NUM, new_arr0 0 MATRIX_TYPE_NUM)) as [-> | Hin]; [done| | |done|done].
    - exists []. rewrite all_F. unfold wadd. rewrite wrap_small by lia. unfold new_arr. rewrite !replicate_length.
      repeat (split; [first [done|apply new_arr0_set]|]). constructor.
    - pose proof (keys_F F). lia.
  Qed.
End fill_placed.

(** ** the numbers the constructors compute, modulo the width of the index type *)
Section wrapped.
  Context {T : Type} `{Scalar T} `{Widths}.
  Context (roff : list nat) (nbr rows : nat) (coff : list nat) (nbc cols : nat) (E : list (elem T)).
  Context (Hr : blocking roff nbr rows) (Hc : blocking coff nbc cols).
  Context (P1 : 0 < nbr) (P2 : 0 < nbc) (Hnr : nbr <= rows) (Hnc : nbc <= cols) (Hrows : rows + 1 < itW) (Hcols : cols < itW) (Hnnz : length E < itW).
  Definition wids : list (elem T) := (fun e => set_blk (wrap (block_id roff nbr coff nbc e)) e) <$> E.
  Definition wsorted : list (elem T) := isort compare_blocks wids.
  Lemma wsorted_perm : wsorted ≡ₚ wids. Proof. apply isort_perm. Qed.
  Lemma wsorted_length : length wsorted = length E.
  Proof. unfold wsorted. rewrite isort_length. apply fmap_length. Qed.
  Lemma wsorted_ksorted : ksorted blk wsorted.
  Proof.
    unfold ksorted, wsorted. pose proof (isort_sorted _ swo_compare_blocks wids) as Hs.
    induction Hs as [|a l Hs IH Hf]; constructor; [done|]. eapply Forall_impl; [exact Hf|].
    intros e He. unfold cle in He. rewrite compare_blocks_lex in He. unfold lex in He.
    rewrite orb_false_iff, Nat.ltb_ge in He. lia.
  Qed.
  Lemma calculate_block_id_wraps : calculate_block_id E (full roff) nbr (full coff) nbc = Ok wids.
  Proof.
    unfold calculate_block_id, wids.
    erewrite <- (map_loop (fun e => br ← index_to_blockindex (full roff) nbr (row e);
         bc ← index_to_blockindex (full coff) nbc (col e); Ok (set_blk (wadd (wmul br nbc) bc) e))).
    - apply for_n_ext. intros i s _. destruct (lget s i) as [e| | |]; try done. cbn [mbind outcome_bind].
      destruct (index_to_blockindex (full roff) nbr (row e)) as [br| | |]; try done. cbn [mbind outcome_bind].
      destruct (index_to_blockindex (full coff) nbc (col e)) as [bc| | |]; try done.
    - intros e He.
      rewrite (index_to_blockindex_any roff nbr rows) by first [done|lia].
      rewrite (index_to_blockindex_any coff nbc cols) by first [done|lia]. cbn [mbind outcome_bind]. do 2 f_equal.
      unfold wadd, wmul, wrap, block_id. apply Nat.add_mod_idemp_l. lia.
  Qed.
  Lemma number_lt (e : elem T) : block_id roff nbr coff nbc e < nbr * nbc.
  Proof.
    destruct (block_of_any roff nbr rows (row e) Hr P1) as (Q1 & _). destruct (block_of_any coff nbc cols (col e) Hc P2) as (Q2 & _).
    unfold block_id. nia.
  Qed.
  Lemma wsorted_elem e : e ∈ wsorted -> exists e0, e0 ∈ E /\ e = set_blk (wrap (block_id roff nbr coff nbc e0)) e0.
  Proof. rewrite wsorted_perm. unfold wids. intros (e0 & -> & He0)%elem_of_list_fmap. by exists e0. Qed.
  Lemma wsorted_blk e : e ∈ wsorted -> blk e / nbc < nbr /\ blk e mod nbc < nbc.
  Proof.
    intros (e0 & _ & ->)%wsorted_elem. cbn [blk set_blk]. pose proof (number_lt e0) as Hlt.
    split; [|apply Nat.mod_upper_bound; lia]. apply Nat.div_lt_upper_bound; [lia|]. unfold wrap.
    assert (block_id roff nbr coff nbc e0 mod itW <= block_id roff nbr coff nbc e0) by (apply Nat.mod_le; lia). lia.
  Qed.
  Lemma wsorted_placed : Forall (placed roff coff nbc) wsorted -> in_range rows cols E /\ (forall e, e ∈ E -> block_id roff nbr coff nbc e < itW).
  Proof.
    intros HF. assert (Hall : forall e, e ∈ E -> (row e < rows /\ col e < cols) /\ block_id roff nbr coff nbc e < itW).
    { intros e He. set (e' := set_blk (wrap (block_id roff nbr coff nbc e)) e).
      assert (Hin : e' ∈ wsorted) by (rewrite wsorted_perm; apply elem_of_list_fmap; by exists e).
      rewrite Forall_forall in HF. destruct (HF _ Hin) as [R1 R2]. destruct (wsorted_blk _ Hin) as [B1 B2].
      change (row e') with (row e) in R1. change (col e') with (col e) in R2.
      assert (row e < rows). { destruct R1 as [_ R1]. pose proof (blocking_le _ _ _ (S (blk e' / nbc)) Hr ltac:(lia)). lia. }
      assert (col e < cols). { destruct R2 as [_ R2]. pose proof (blocking_le _ _ _ (S (blk e' mod nbc)) Hc ltac:(lia)). lia. }
      split; [done|].
      pose proof (block_of_unique roff nbr rows (row e) (blk e' / nbc) Hr B1 R1) as U1.
      pose proof (block_of_unique coff nbc cols (col e) (blk e' mod nbc) Hc B2 R2) as U2.
      assert (block_id roff nbr coff nbc e = blk e') as ->.
      { unfold block_id. rewrite U1, U2. symmetry. rewrite Nat.mul_comm. apply Nat.div_mod. lia. }
      unfold e'. cbn [blk set_blk]. unfold wrap. apply Nat.mod_upper_bound. lia. }
    split; [apply Forall_forall; intros e He; by apply Hall|]. intros e He. by apply Hall.
  Qed.
  Lemma wsorted_first : (exists e, e ∈ E /\ wrap (block_id roff nbr coff nbc e) <> itW - 1) -> forall e, wsorted !! 0 = Some e -> blk e <> itW - 1.
  Proof.
    intros (e0 & He0 & Hb) e He. set (e' := set_blk (wrap (block_id roff nbr coff nbc e0)) e0) in *.
    assert (Hin : e' ∈ wsorted) by (rewrite wsorted_perm; apply elem_of_list_fmap; by exists e0).
    assert (blk e <= blk e').
    { pose proof wsorted_ksorted as Hs. destruct wsorted as [|c l]; [done|]. injection He as ->. unfold ksorted in Hs.
      apply StronglySorted_inv in Hs as [_ Hs]. rewrite Forall_forall in Hs. apply elem_of_cons in Hin as [-> |Hin]; [lia|]. by apply Hs. }
    change (blk e') with (wrap (block_id roff nbr coff nbc e0)) in *.
    assert (wrap (block_id roff nbr coff nbc e0) < itW) by (apply Nat.mod_upper_bound; lia). lia.
  Qed.
  Lemma count_wsorted : E <> [] -> count_blocks wsorted = Ok (length (keys blk wsorted)).
  Proof.
    intros Hne. pose proof (count_blocks_spec wsorted) as Hcb. apply wp_eq. eapply wp_mono; [apply Hcb|].
    - intros Hn. apply Hne. apply length_zero_iff_nil. rewrite <- wsorted_length, Hn. done.
    - by rewrite wsorted_length.
    - apply wsorted_ksorted.
    - intros n Hn. eapply distinct_unique; [exact Hn|]. apply ids_distinct. apply (ksorted_keys blk), wsorted_ksorted.
  Qed.
  Lemma wprelude {A : Type} (f : list (elem T) -> nat -> outcome A) : E <> [] ->
    (E0 ← calculate_block_id E (full roff) nbr (full coff) nbc; E0 ← sort_elements_blocks E0;
     nnzblocks ← count_blocks E0; _ ← check_blocking (full roff) nbr rows (full coff) nbc cols; f E0 nnzblocks) = f wsorted (length (keys blk wsorted)).
  Proof.
    intros Hne. rewrite calculate_block_id_wraps. cbn [mbind outcome_bind].
    rewrite sort_elements_blocks_spec. cbn [mbind outcome_bind]. fold wsorted.
    rewrite count_wsorted by done. cbn [mbind outcome_bind].
    by rewrite (check_blocking_ok roff nbr rows coff nbc cols Hr Hc Hnr Hnc).
  Qed.
  Lemma csbr_misnumbered workers : (exists e, e ∈ E /\ wrap (block_id roff nbr coff nbc e) <> itW - 1) ->
    ~ (in_range rows cols E /\ (forall e, e ∈ E -> block_id roff nbr coff nbc e < itW)) ->
    Coo_to_Csbr workers (Coo rows cols E) (full roff) nbr (full coff) nbc = Abort.
  Proof.
    intros Hex Hout. assert (Hne : E <> []) by (intros ->; destruct Hex as (e & He & _); by apply elem_of_nil in He).
    unfold Coo_to_Csbr. cbn [c_elems c_rows c_cols]. unfold c_nnz. cbn [c_elems]. rewrite wprelude by done.
    rewrite block_scan_tame. rewrite <- wsorted_length.
    assert (Hscan : wp (block_scan (tame_new (csbr_new (full roff) (full coff) nbc)) (tame_add csbr_add) wsorted
      (Some (None, new_arr0 0 (wadd nbr 1), new_arr (length (keys blk wsorted)), new_arr (length (keys blk wsorted)), new_arr (length wsorted), new_arr (length wsorted))))
      (csbr_any roff nbr coff nbc wsorted wsorted)).
    { eapply csbr_scan_any; first [eassumption | rewrite wsorted_length; eassumption | apply wsorted_ksorted | apply wsorted_blk | by apply wsorted_first]. }
    unfold csbr_st in Hscan |- *. apply wp_exists in Hscan as (st & -> & Hst).
    destruct st as [[[[[[g ptr] ind] blocks] ci] v]|]; [|done]. exfalso. apply Hout, wsorted_placed, Hst.
  Qed.
  Lemma csbr2_misnumbered : (exists e, e ∈ E /\ wrap (block_id roff nbr coff nbc e) <> itW - 1) ->
    ~ (in_range rows cols E /\ (forall e, e ∈ E -> block_id roff nbr coff nbc e < itW)) ->
    Coo_to_Csbr2 (Coo rows cols E) (full roff) nbr (full coff) nbc = Abort.
  Proof.
    intros Hex Hout. assert (Hne : E <> []) by (intros ->; destruct Hex as (e & He & _); by apply elem_of_nil in He).
    unfold Coo_to_Csbr2. cbn [c_elems c_rows c_cols]. unfold c_nnz. cbn [c_elems]. rewrite wprelude by done.
    rewrite block_scan_tame. rewrite <- wsorted_length.
    assert (Hscan : wp (block_scan (tame_new (csbr2_new (full roff) (full coff) nbc)) (tame_add csbr2_add) wsorted
      (Some (None, new_arr0 0 (wadd nbr 1), new_arr (length (keys blk wsorted)), new_arr (length wsorted), new_arr (length wsorted))))
      (csbr2_any roff nbr coff nbc wsorted wsorted)).
    { eapply csbr2_scan_any; first [eassumption | rewrite wsorted_length; eassumption | apply wsorted_ksorted | apply wsorted_blk | by apply wsorted_first]. }
    unfold csbr2_st in Hscan |- *. apply wp_exists in Hscan as (st & -> & Hst).
    destruct st as [[[[[g ptr] rps] ci] v]|]; [|done]. exfalso. apply Hout, wsorted_placed, Hst.
  Qed.
  (** every number equal to the value the scan starts from: no block is ever begun *)
  Lemma scan_last {St : Type} (new : nat -> nat -> nat -> St -> outcome St) (add : nat -> nat -> elem T -> St -> outcome St) (st : St) u :
    E <> [] -> (forall e, e ∈ E -> wrap (block_id roff nbr coff nbc e) = itW - 1) ->
    (forall k i e, add k i e st = Undef u) -> block_scan new add wsorted st = Undef u.
  Proof.
    intros Hne Hall Hadd. unfold block_scan, for_range. rewrite Nat.sub_0_r.
    pose proof wsorted_length as Hlen. pose proof wsorted_elem as Hel. destruct wsorted as [|c l]; [destruct E; [done|cbn in Hlen; lia]|].
    cbn [length for_n]. rewrite (lget_some _ _ c) by done. cbn [mbind outcome_bind].
    destruct (Hel c ltac:(left)) as (e0 & He0 & ->). cbn [blk set_blk]. rewrite (Hall _ He0), Nat.eqb_refl. cbn [mbind outcome_bind]. by rewrite Hadd.
  Qed.
  Lemma csbr_last_number workers : E <> [] -> (forall e, e ∈ E -> wrap (block_id roff nbr coff nbc e) = itW - 1) ->
    Coo_to_Csbr workers (Coo rows cols E) (full roff) nbr (full coff) nbc = Undef Uninit.
  Proof.
    intros Hne Hall. unfold Coo_to_Csbr. cbn [c_elems c_rows c_cols]. unfold c_nnz. cbn [c_elems]. rewrite wprelude by done.
    unfold csbr_st. rewrite (scan_last _ _ _ Uninit) by done. done.
  Qed.
  Lemma csbr2_last_number : E <> [] -> (forall e, e ∈ E -> wrap (block_id roff nbr coff nbc e) = itW - 1) ->
    Coo_to_Csbr2 (Coo rows cols E) (full roff) nbr (full coff) nbc = Undef Uninit.
  Proof.
    intros Hne Hall. unfold Coo_to_Csbr2. cbn [c_elems c_rows c_cols]. unfold c_nnz. cbn [c_elems]. rewrite wprelude by done.
    unfold csbr2_st. rewrite (scan_last _ _ _ Uninit) by done. done.
  Qed.
End wrapped.
