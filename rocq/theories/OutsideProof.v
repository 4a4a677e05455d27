(** OutsideProof.v: the blocked constructors on matrices with elements outside the declared
    dimensions (C96).  index_to_blockindex puts every index beyond the end into the last block. *)
From Verif Require Import CsbrProof Csbr2Proof CgbrProof RangeProof WideProof.
From Coq Require Import ZifyNat ZifyBool.

(** ** the block of any index *)
Lemma block_of_any off nb n i : blocking off nb n -> 0 < nb -> block_of off nb i < nb /\ nth (block_of off nb i) off 0 <= i /\
  (forall j, block_of off nb i < j < nb -> i < nth j off 0).
Proof.
  intros Hb Hpos. pose proof Hb as (Hl & H0 & Hn & Hm).
  assert (Hgen : forall m, 0 < m -> m <= nb -> block_of off m i < m /\ nth (block_of off m i) off 0 <= i /\ (forall j, block_of off m i < j < m -> i < nth j off 0)).
  { induction m as [|m IH]; intros Hm0 Hle; [lia|]. cbn [block_of].
    destruct (Nat.leb_spec (nth m off 0) i) as [Hc|Hc].
    - split; [lia|]. split; [done|]. intros j Hj. lia.
    - destruct m as [|m]; [lia|]. destruct (IH ltac:(lia) ltac:(lia)) as (I1 & I2 & I3). split; [lia|]. split; [done|].
      intros j Hj. destruct (decide (j = S m)) as [-> |]; [done|]. apply I3. lia. }
  by apply Hgen.
Qed.

Section ids.
  Context {T : Type} `{Widths}.
  Implicit Types E : list (elem T).
  Lemma index_to_blockindex_any off nb n i : blocking off nb n -> 0 < nb -> nb < itW ->
    index_to_blockindex (full off) nb i = Ok (block_of off nb i).
  Proof.
    intros Hb Hpos Hw. pose proof Hb as (Hl & H0' & Hn & Hm). apply wp_eq. unfold index_to_blockindex.
    apply wp_bind. eapply wp_mono.
    { apply ub_loop_spec; [|lia|lia]. intros j k Hjk Hk. eapply blocking_mono; [exact Hb|done|lia]. }
    intros r (Hr & Hlow & Hhigh). cbn [wp].
    destruct (block_of_any off nb n i Hb Hpos) as (Hbn & Hb1 & Hb2).
    assert (Hrr : r = S (block_of off nb i)).
    { destruct (Nat.lt_trichotomy r (S (block_of off nb i))) as [Hlt|[Heq|Hgt]]; [|done|].
      - specialize (Hhigh (block_of off nb i) ltac:(lia)). lia.
      - specialize (Hlow (S (block_of off nb i)) ltac:(lia)). specialize (Hb2 (S (block_of off nb i)) ltac:(lia)). lia. }
    rewrite Hrr. unfold wrap. replace (S (block_of off nb i) + (itW - 1)) with (block_of off nb i + 1 * itW) by lia.
    rewrite Nat.mod_add by lia. apply Nat.mod_small. lia.
  Qed.
  Lemma calculate_block_id_any E roff nbr coff nbc rows cols :
    blocking roff nbr rows -> blocking coff nbc cols -> 0 < nbr -> 0 < nbc -> nbr * nbc < itW ->
    calculate_block_id E (full roff) nbr (full coff) nbc = Ok (with_ids roff nbr coff nbc E).
  Proof.
    intros Hr Hc P1 P2 Hw. unfold calculate_block_id, with_ids.
    erewrite <- (map_loop (fun e => br ← index_to_blockindex (full roff) nbr (row e);
         bc ← index_to_blockindex (full coff) nbc (col e); Ok (set_blk (wadd (wmul br nbc) bc) e))).
    - apply for_n_ext. intros i s _. destruct (lget s i) as [e| | |]; try done. cbn [mbind outcome_bind].
      destruct (index_to_blockindex (full roff) nbr (row e)) as [br| | |]; try done. cbn [mbind outcome_bind].
      destruct (index_to_blockindex (full coff) nbc (col e)) as [bc| | |]; try done.
    - intros e He.
      rewrite (index_to_blockindex_any roff nbr rows) by first [done|nia].
      rewrite (index_to_blockindex_any coff nbc cols) by first [done|nia]. cbn [mbind outcome_bind]. do 2 f_equal.
      destruct (block_of_any roff nbr rows (row e) Hr P1) as (Q1 & _). destruct (block_of_any coff nbc cols (col e) Hc P2) as (Q2 & _). unfold block_id.
      unfold wadd, wmul. rewrite (wrap_small (_ * nbc)) by nia. apply wrap_small. nia.
  Qed.
End ids.

(** ** scans that may end in a failed assertion *)
Section tame.
  Context {T : Type} `{Widths} {St : Type}.
  Definition tame {A : Type} (m : outcome A) : outcome (option A) :=
    match m with Ok a => Ok (Some a) | Abort => Ok None | Undef u => Undef u | Diverge => Diverge end.
  Definition tame_new (new : nat -> nat -> nat -> St -> outcome St) (k i b : nat) (s : option St) : outcome (option St) :=
    match s with None => Ok None | Some s => tame (new k i b s) end.
  Definition tame_add (add : nat -> nat -> elem T -> St -> outcome St) (k i : nat) (e : elem T) (s : option St) : outcome (option St) :=
    match s with None => Ok None | Some s => tame (add k i e s) end.
  Definition untame {A : Type} (m : outcome (option A)) : outcome A :=
    match m with Ok (Some a) => Ok a | Ok None => Abort | Undef u => Undef u | Abort => Abort | Diverge => Diverge end.
  Lemma block_scan_tame (new : nat -> nat -> nat -> St -> outcome St) add (E : list (elem T)) (st : St) :
    block_scan new add E st = untame (block_scan (tame_new new) (tame_add add) E (Some st)).
  Proof.
    unfold block_scan, for_range. rewrite Nat.sub_0_r.
    match goal with |- mbind _ (for_n _ _ ?b _) = untame (mbind _ (for_n _ _ ?b' _)) => set (body := b); set (body' := b') end.
    assert (Hnone : forall n lo k p, lo + n <= length E -> exists k' p', for_n n lo body' (k, p, None) = Ok (k', p', None)).
    { induction n as [|n IH]; intros lo k p Hle; [by do 2 eexists|]. cbn [for_n].
      destruct (lookup_lt_is_Some_2 E lo) as [e He]; [lia|].
      assert (exists k' p', body' lo (k, p, None) = Ok (k', p', None)) as (k' & p' & ->).
      { unfold body'. rewrite (lget_some _ _ _ He). cbn [mbind outcome_bind]. destruct (blk e =? p); cbn [mbind outcome_bind tame_new tame_add]; by do 2 eexists. }
      cbn [mbind outcome_bind]. apply IH. lia. }
    assert (Hgen : forall n lo k p s, lo + n <= length E ->
      for_n n lo body (k, p, s) = match for_n n lo body' (k, p, Some s) with
        Ok (k, p, Some s) => Ok (k, p, s) | Ok (_, _, None) => Abort | Undef u => Undef u | Abort => Abort | Diverge => Diverge end).
    { induction n as [|n IH]; intros lo k p s Hle; [done|]. cbn [for_n].
      destruct (lookup_lt_is_Some_2 E lo) as [e He]; [lia|].
      assert (Hbody : body' lo (k, p, Some s) = match body lo (k, p, s) with
         Ok (k, p, s) => Ok (k, p, Some s) | Undef u => Undef u | Diverge => Diverge
         | Abort => if blk e =? p then Ok (k, p, None) else Ok (wadd k 1, blk e, None) end).
      { unfold body, body'. rewrite (lget_some _ _ _ He). cbn [mbind outcome_bind]. destruct (blk e =? p); cbn [mbind outcome_bind tame_new].
        - cbn [tame_add]. destruct (add k lo e s); done.
        - destruct (new (wadd k 1) lo (blk e) s) as [s'| | |]; cbn [tame mbind outcome_bind tame_add]; try done.
          destruct (add (wadd k 1) lo e s'); done. }
      rewrite Hbody. clear Hbody. destruct (body lo (k, p, s)) as [[[k' p'] s']| | |]; cbn [mbind outcome_bind]; try done.
      - apply IH. lia.
      - destruct (blk e =? p); cbn [mbind outcome_bind];
        match goal with |- context [for_n n _ body' (?k, ?p, None)] => destruct (Hnone n (S lo) k p ltac:(lia)) as (? & ? & ->) end; done. }
    rewrite Hgen by lia. destruct (for_n _ _ body' _) as [[[k p] [s|]]| | |]; done.
  Qed.
End tame.

(** ** arrays whose elements are all set *)
Section set_arr.
  Context `{Widths}.
  Definition set_arr (a : arr nat) (n : nat) : Prop := exists l : list nat, a = full l /\ length l = n.
  Lemma incr_set a n k : set_arr a n -> k < n -> exists a', incr a k = Ok a' /\ set_arr a' n.
  Proof.
    intros (l & -> & Hl) Hk. destruct (lookup_lt_is_Some_2 l k) as [v Hv]; [lia|].
    unfold incr. rewrite aget_full, (lget_some _ _ _ Hv). cbn [mbind outcome_bind]. rewrite aset_full by lia.
    eexists. split; [done|]. eexists. split; [done|]. by rewrite insert_length.
  Qed.
  Lemma new_arr0_set n : set_arr (new_arr0 0 n) n.
  Proof. exists (replicate n 0). split; [|by rewrite replicate_length]. unfold new_arr0, full. by rewrite fmap_replicate. Qed.
End set_arr.

Section outside.
  Context {T : Type} `{Scalar T} `{Widths}.
  Context (roff : list nat) (nbr rows : nat) (coff : list nat) (nbc cols : nat) (E : list (elem T)).
  Context (Hr : blocking roff nbr rows) (Hc : blocking coff nbc cols).
  Context (P1 : 0 < nbr) (P2 : 0 < nbc) (Hnr : nbr <= rows) (Hnc : nbc <= cols) (Hids : nbr * nbc < itW) (Hrows : rows + 1 < itW) (Hcols : cols < itW) (Hnnz : length E < itW).
  Notation E' := (bsorted roff nbr coff nbc E).
  Notation I := (bids roff nbr coff nbc E).
  Implicit Types (l : list (elem T)) (e : elem T).
  Notation geo := (geo roff coff nbc).

  Lemma any_blk e : e ∈ E' -> blk e < nbr * nbc /\ blk e / nbc < nbr /\ blk e mod nbc < nbc.
  Proof.
    rewrite bsorted_perm. unfold with_ids. intros (e0 & -> & He0)%elem_of_list_fmap. cbn [blk set_blk].
    destruct (block_of_any roff nbr rows (row e0) Hr P1) as (Q1 & _). destruct (block_of_any coff nbc cols (col e0) Hc P2) as (Q2 & _).
    unfold block_id. split; [nia|]. split; [|by apply Nat.mod_upper_bound; lia].
    rewrite Nat.div_add_l by lia. rewrite Nat.div_small by done. lia.
  Qed.
  Lemma any_geometry id : id / nbc < nbr -> id mod nbc < nbc ->
    block_geometry (full roff) (full coff) nbc id = Ok (id / nbc, id mod nbc, geo id) /\
    ro roff nbc id + rsz roff nbc id <= rows /\ co coff nbc id + csz coff nbc id <= cols.
  Proof.
    intros H1 H2. unfold block_geometry. rewrite div_ok, mod_ok by done. cbn [mbind outcome_bind].
    pose proof (blocking_get _ _ _ (id / nbc) Hr ltac:(lia)) as A1. pose proof (blocking_get _ _ _ (S (id / nbc)) Hr ltac:(lia)) as A2.
    pose proof (blocking_get _ _ _ (id mod nbc) Hc ltac:(lia)) as A3. pose proof (blocking_get _ _ _ (S (id mod nbc)) Hc ltac:(lia)) as A4.
    pose proof (blocking_mono _ _ _ (id / nbc) (S (id / nbc)) Hr ltac:(lia) ltac:(lia)) as M1.
    pose proof (blocking_mono _ _ _ (id mod nbc) (S (id mod nbc)) Hc ltac:(lia) ltac:(lia)) as M2.
    pose proof (blocking_le _ _ _ (S (id / nbc)) Hr ltac:(lia)) as L1. pose proof (blocking_le _ _ _ (S (id mod nbc)) Hc ltac:(lia)) as L2.
    replace (id / nbc + 1) with (S (id / nbc)) by lia. replace (id mod nbc + 1) with (S (id mod nbc)) by lia.
    rewrite A1, A2, A3, A4. cbn [mbind outcome_bind]. rewrite !wsub_small by lia.
    unfold CsbrProof.geo, ro, rsz, co, csz. replace (id / nbc + 1) with (S (id / nbc)) by lia. replace (id mod nbc + 1) with (S (id mod nbc)) by lia.
    split; [done|]. lia.
  Qed.
  Lemma geo_rs id : g_rs (geo id) = rsz roff nbc id. Proof. done. Qed.
  Lemma check_inside_any e id : id / nbc < nbr -> id mod nbc < nbc ->
    check_inside (geo id) e = Abort \/
    (check_inside (geo id) e = Ok tt /\ row e < rows /\ col e < cols /\ ro roff nbc id <= row e < ro roff nbc id + rsz roff nbc id).
  Proof.
    intros H1 H2. destruct (any_geometry id H1 H2) as (_ & G1 & G2). unfold check_inside, CsbrProof.geo, wadd. cbn [g_ro g_rs g_co g_cs].
    rewrite !wrap_small by lia.
    destruct (Nat.leb_spec (ro roff nbc id) (row e)); [|by left]. cbn [assert_ mbind outcome_bind].
    destruct (Nat.ltb_spec (row e) (ro roff nbc id + rsz roff nbc id)); [|by left]. cbn [assert_ mbind outcome_bind].
    destruct (Nat.leb_spec (co coff nbc id) (col e)); [|by left]. cbn [assert_ mbind outcome_bind].
    destruct (Nat.ltb_spec (col e) (co coff nbc id + csz coff nbc id)); [|by left]. right. split; [done|]. lia.
  Qed.
  Definition inside l : Prop := Forall (fun e => row e < rows /\ col e < cols) l.
  Lemma inside_all : inside E' -> in_range rows cols E.
  Proof.
    unfold inside. intros HF. unfold in_range. apply Forall_forall. intros e He. rewrite Forall_forall in HF.
    assert (Hin : set_blk (block_id roff nbr coff nbc e) e ∈ E') by (rewrite bsorted_perm; apply elem_of_list_fmap; by exists e).
    apply (HF _ Hin).
  Qed.

  (** *** Csbr *)
  Definition csbr_any l (st : option (csbr_st (T := T))) : Prop :=
    match st with
    | None => True
    | Some (g, ptr, ind, blocks, ci, v) =>
        g = geo <$> last (blk <$> l) /\ set_arr ptr (nbr + 1) /\ length ind = length I /\ length blocks = length I /\
        (forall id, last (blk <$> l) = Some id -> exists B, blocks !! (length (keys blk l) - 1) = Some (Some B) /\ set_arr (cb_ptr B) (rsz roff nbc id + 1)) /\
        length ci = length E /\ length v = length E /\ inside l
    end.
  Lemma csbr_add_any l e k (ptr ind : arr nat) (blocks : arr csbr_block) (ci : arr nat) (v : arr T) (B : csbr_block) : e ∈ E' -> length l < length E ->
    set_arr ptr (nbr + 1) -> length ind = length I -> length blocks = length I -> blocks !! k = Some (Some B) -> set_arr (cb_ptr B) (rsz roff nbc (blk e) + 1) ->
    length ci = length E -> length v = length E -> inside l -> k = length (keys blk (l ++ [e])) - 1 ->
    wp (tame (csbr_add k (length l) e (Some (geo (blk e)), ptr, ind, blocks, ci, v))) (csbr_any (l ++ [e])).
  Proof.
    intros He Hl Hptr Hind Hblocks HB Hset Hci Hv Hin Hk. destruct (any_blk e He) as (B1 & B2 & B3).
    unfold csbr_add. cbn [use mbind outcome_bind].
    destruct (check_inside_any e (blk e) B2 B3) as [-> | (-> & R1 & R2 & R3)]; [done|]. cbn [mbind outcome_bind].
    unfold aget. rewrite HB. cbn [mbind outcome_bind]. destruct (any_geometry (blk e) B2 B3) as (_ & G1 & _).
    rewrite (wsub_small (row e)) by (unfold CsbrProof.geo; cbn [g_ro]; lia). unfold wadd. rewrite (wrap_small (row e - _ + 1)) by (unfold CsbrProof.geo; cbn [g_ro]; lia).
    destruct (incr_set _ _ (row e - g_ro (geo (blk e)) + 1) Hset) as (rp & -> & Hrp); [unfold CsbrProof.geo; cbn [g_ro]; lia|]. cbn [mbind outcome_bind].
    pose proof (lookup_lt_Some _ _ _ HB) as Hkl.
    rewrite (aset_ok blocks) by done. cbn [mbind outcome_bind].
    rewrite (aset_ok ci) by lia. cbn [mbind outcome_bind]. rewrite (aset_ok v) by lia. cbn [mbind outcome_bind tame wp csbr_any].
    rewrite fmap_app. cbn [fmap list_fmap]. rewrite last_snoc. cbn [fmap option_fmap option_map].
    split; [done|]. split; [done|]. split; [done|]. split; [by rewrite insert_length|]. split.
    { intros id [= <-]. rewrite <- Hk. eexists. rewrite list_lookup_insert by done. split; [done|]. done. }
    split; [by rewrite insert_length|]. split; [by rewrite insert_length|]. apply Forall_app. split; [done|]. by apply Forall_singleton.
  Qed.
  Lemma csbr_scan_any :
    wp (block_scan (tame_new (csbr_new (full roff) (full coff) nbc)) (tame_add csbr_add) E'
      (Some (None, new_arr0 0 (wadd nbr 1), new_arr (length I), new_arr (length I), new_arr (length E), new_arr (length E)))) (csbr_any E').
  Proof.
    apply block_scan_spec.
    - apply bsorted_ksorted.
    - intros e He. apply elem_of_list_lookup_2 in He. destruct (any_blk e He). lia.
    - by rewrite bsorted_length.
    - unfold csbr_any. cbn. unfold wadd. rewrite wrap_small by lia. unfold new_arr. rewrite !replicate_length.
      repeat (split; [first [done|apply new_arr0_set]|]). constructor.
    - intros l e [s|] [r HE'] Hks Hl Hs; [|done]. destruct s as [[[[[g ptr] ind] blocks] ci] v]. destruct Hs as (-> & Hptr & Hind & Hbl & Hlast & Hci & Hv & Hin).
      destruct (prefix_facts roff nbr coff nbc E l e r HE') as (He & Hll & Hkl & Hkn & _).
      rewrite (prefix_new l e Hl), app_length in Hkn. cbn [length] in Hkn.
      destruct (any_blk e He) as (B1 & B2 & B3). destruct (any_geometry (blk e) B2 B3) as (HG & G1 & _).
      cbn [tame_new]. unfold csbr_new. rewrite HG. cbn [mbind outcome_bind].
      destruct (incr_set _ _ (blk e / nbc + 1) Hptr) as (ptr' & -> & Hptr'); [lia|]. cbn [mbind outcome_bind].
      rewrite (aset_ok ind) by lia. cbn [mbind outcome_bind]. rewrite (aset_ok blocks) by lia. cbn [mbind outcome_bind tame wp tame_add].
      eapply csbr_add_any; try done.
      + by rewrite insert_length.
      + by rewrite insert_length.
      + rewrite list_lookup_insert by lia. done.
      + cbn [cb_ptr]. rewrite geo_rs. unfold wadd. rewrite wrap_small by lia. apply new_arr0_set.
      + rewrite (prefix_new l e Hl), app_length. cbn [length]. lia.
    - intros l e [s|] [r HE'] Hks Hl Hs; [|done]. destruct s as [[[[[g ptr] ind] blocks] ci] v]. destruct Hs as (-> & Hptr & Hind & Hbl & Hlast & Hci & Hv & Hin).
      destruct (prefix_facts roff nbr coff nbc E l e r HE') as (He & Hll & Hkl & Hkn & _).
      rewrite Hl. cbn [fmap option_fmap option_map tame_add]. destruct (Hlast _ Hl) as (B & HB & Hset).
      eapply csbr_add_any; try done. by rewrite (prefix_old l e Hl).
  Qed.
  Lemma prelude {A : Type} (f : list (elem T) -> nat -> outcome A) : E <> [] ->
    (E0 ← calculate_block_id E (full roff) nbr (full coff) nbc; E0 ← sort_elements_blocks E0;
     nnzblocks ← count_blocks E0; _ ← check_blocking (full roff) nbr rows (full coff) nbc cols; f E0 nnzblocks) = f E' (length I).
  Proof.
    intros Hne. rewrite (calculate_block_id_any E roff nbr coff nbc rows cols) by done. cbn [mbind outcome_bind].
    rewrite sort_elements_blocks_spec. cbn [mbind outcome_bind]. fold (bsorted roff nbr coff nbc E).
    rewrite count_bids by done. cbn [mbind outcome_bind].
    by rewrite (check_blocking_ok roff nbr rows coff nbc cols Hr Hc Hnr Hnc).
  Qed.
  Lemma csbr_outside workers : E <> [] -> ~ in_range rows cols E ->
    Coo_to_Csbr workers (Coo rows cols E) (full roff) nbr (full coff) nbc = Abort.
  Proof.
    intros Hne Hout. unfold Coo_to_Csbr. cbn [c_elems c_rows c_cols]. unfold c_nnz. cbn [c_elems]. rewrite prelude by done.
    rewrite block_scan_tame. pose proof csbr_scan_any as Hscan. unfold csbr_st in Hscan |- *.
    apply wp_exists in Hscan as (st & -> & Hst).
    destruct st as [[[[[[g ptr] ind] blocks] ci] v]|]; [|done]. exfalso. apply Hout, inside_all, Hst.
  Qed.

  (** *** Csbr2 *)
  Definition csbr2_any l (st : option (csbr2_st (T := T))) : Prop :=
    match st with
    | None => True
    | Some (g, ptr, rps, ci, v) =>
        g = geo <$> last (blk <$> l) /\ set_arr ptr (nbr + 1) /\ length rps = length I /\
        (forall id, last (blk <$> l) = Some id -> exists rp, rps !! (length (keys blk l) - 1) = Some (Some rp) /\ set_arr rp (rsz roff nbc id + 1)) /\
        length ci = length E /\ length v = length E /\ inside l
    end.
  Lemma csbr2_add_any l e k (ptr : arr nat) (rps : arr (arr nat)) (ci : arr nat) (v : arr T) (rp : arr nat) : e ∈ E' -> length l < length E ->
    set_arr ptr (nbr + 1) -> length rps = length I -> rps !! k = Some (Some rp) -> set_arr rp (rsz roff nbc (blk e) + 1) ->
    length ci = length E -> length v = length E -> inside l -> k = length (keys blk (l ++ [e])) - 1 ->
    wp (tame (csbr2_add k (length l) e (Some (geo (blk e)), ptr, rps, ci, v))) (csbr2_any (l ++ [e])).
  Proof.
    intros He Hl Hptr Hblocks HB Hset Hci Hv Hin Hk. destruct (any_blk e He) as (B1 & B2 & B3).
    unfold csbr2_add. cbn [use mbind outcome_bind].
    destruct (check_inside_any e (blk e) B2 B3) as [-> | (-> & R1 & R2 & R3)]; [done|]. cbn [mbind outcome_bind].
    unfold aget. rewrite HB. cbn [mbind outcome_bind]. destruct (any_geometry (blk e) B2 B3) as (_ & G1 & _).
    rewrite (wsub_small (row e)) by (unfold CsbrProof.geo; cbn [g_ro]; lia). unfold wadd. rewrite (wrap_small (row e - _ + 1)) by (unfold CsbrProof.geo; cbn [g_ro]; lia).
    destruct (incr_set _ _ (row e - g_ro (geo (blk e)) + 1) Hset) as (rp' & -> & Hrp); [unfold CsbrProof.geo; cbn [g_ro]; lia|]. cbn [mbind outcome_bind].
    pose proof (lookup_lt_Some _ _ _ HB) as Hkl.
    rewrite (aset_ok rps) by done. cbn [mbind outcome_bind].
    rewrite (aset_ok ci) by lia. cbn [mbind outcome_bind]. rewrite (aset_ok v) by lia. cbn [mbind outcome_bind tame wp csbr2_any].
    rewrite fmap_app. cbn [fmap list_fmap]. rewrite last_snoc. cbn [fmap option_fmap option_map].
    split; [done|]. split; [done|]. split; [by rewrite insert_length|]. split.
    { intros id [= <-]. rewrite <- Hk. eexists. rewrite list_lookup_insert by done. split; [done|]. done. }
    split; [by rewrite insert_length|]. split; [by rewrite insert_length|]. apply Forall_app. split; [done|]. by apply Forall_singleton.
  Qed.
  Lemma csbr2_scan_any :
    wp (block_scan (tame_new (csbr2_new (full roff) (full coff) nbc)) (tame_add csbr2_add) E'
      (Some (None, new_arr0 0 (wadd nbr 1), new_arr (length I), new_arr (length E), new_arr (length E)))) (csbr2_any E').
  Proof.
    apply block_scan_spec.
    - apply bsorted_ksorted.
    - intros e He. apply elem_of_list_lookup_2 in He. destruct (any_blk e He). lia.
    - by rewrite bsorted_length.
    - unfold csbr2_any. cbn. unfold wadd. rewrite wrap_small by lia. unfold new_arr. rewrite !replicate_length.
      repeat (split; [first [done|apply new_arr0_set]|]). constructor.
    - intros l e [s|] [r HE'] Hks Hl Hs; [|done]. destruct s as [[[[g ptr] rps] ci] v]. destruct Hs as (-> & Hptr & Hbl & Hlast & Hci & Hv & Hin).
      destruct (prefix_facts roff nbr coff nbc E l e r HE') as (He & Hll & Hkl & Hkn & _).
      rewrite (prefix_new l e Hl), app_length in Hkn. cbn [length] in Hkn.
      destruct (any_blk e He) as (B1 & B2 & B3). destruct (any_geometry (blk e) B2 B3) as (HG & G1 & _).
      cbn [tame_new]. unfold csbr2_new. rewrite HG. cbn [mbind outcome_bind].
      destruct (incr_set _ _ (blk e / nbc + 1) Hptr) as (ptr' & -> & Hptr'); [lia|]. cbn [mbind outcome_bind].
      rewrite (aset_ok rps) by lia. cbn [mbind outcome_bind tame wp tame_add].
      eapply csbr2_add_any; try done.
      + by rewrite insert_length.
      + rewrite list_lookup_insert by lia. done.
      + rewrite geo_rs. unfold wadd. rewrite wrap_small by lia. apply new_arr0_set.
      + rewrite (prefix_new l e Hl), app_length. cbn [length]. lia.
    - intros l e [s|] [r HE'] Hks Hl Hs; [|done]. destruct s as [[[[g ptr] rps] ci] v]. destruct Hs as (-> & Hptr & Hbl & Hlast & Hci & Hv & Hin).
      destruct (prefix_facts roff nbr coff nbc E l e r HE') as (He & Hll & Hkl & Hkn & _).
      rewrite Hl. cbn [fmap option_fmap option_map tame_add]. destruct (Hlast _ Hl) as (B & HB & Hset).
      eapply csbr2_add_any; try done. by rewrite (prefix_old l e Hl).
  Qed.
  Lemma csbr2_outside : E <> [] -> ~ in_range rows cols E ->
    Coo_to_Csbr2 (Coo rows cols E) (full roff) nbr (full coff) nbc = Abort.
  Proof.
    intros Hne Hout. unfold Coo_to_Csbr2. cbn [c_elems c_rows c_cols]. unfold c_nnz. cbn [c_elems]. rewrite prelude by done.
    rewrite block_scan_tame. pose proof csbr2_scan_any as Hscan. unfold csbr2_st in Hscan |- *. apply wp_exists in Hscan as (st & -> & Hst).
    destruct st as [[[[[g ptr] rps] ci] v]|]; [|done]. exfalso. apply Hout, inside_all, Hst.
  Qed.
End outside.

(** *** Cgbr and Cgbr2: the elements of a block are asserted to be inside it before the block is made *)
Section fill_outside.
  Context {T : Type} `{Scalar T} `{Widths}.
  Context (roff : list nat) (nbr rows : nat) (coff : list nat) (nbc cols : nat) (E : list (elem T)).
  Context (Hr : blocking roff nbr rows) (Hc : blocking coff nbc cols).
  Context (P1 : 0 < nbr) (P2 : 0 < nbc) (Hnr : nbr <= rows) (Hnc : nbc <= cols) (Hids : nbr * nbc < itW) (Hrows : rows + 1 < itW) (Hcols : cols < itW) (Hnnz : length E < itW).
  Context (make : factory (T := T)).
  Implicit Types (P G R : list (elem T)).
  Notation E' := (bsorted roff nbr coff nbc E).
  Notation I := (bids roff nbr coff nbc E).
  Notation geo := (geo roff coff nbc).
  Notation at_block := (blocks_at roff nbr coff nbc E).
  Notation local := (local roff nbr coff nbc E).
  Context (Hmake : forall id, id ∈ I -> in_range (rsz roff nbc id) (csz coff nbc id) (local id) ->
     make (local id) (rsz roff nbc id) (csz coff nbc id) = Abort \/
     exists B ty L, make (local id) (rsz roff nbc id) (csz coff nbc id) = Ok (B, ty, L) /\ length L = length (local id) /\ ty < MATRIX_TYPE_NUM).

  Lemma abort_dec {A : Type} (o : outcome A) : {~ o = Abort} + {o = Abort}.
  Proof using Type. destruct o; first [by right|by left]. Qed.
  Lemma rebase_abort P G R (g : geometry) (f : elem T -> elem T) :
    Forall (fun e => check_inside g e = Abort \/
      (check_inside g e = Ok tt /\ Elem (wsub (row e) (g_ro g)) (wsub (col e) (g_co g)) (val e) (blk e) = f e)) G ->
    Exists (fun e => check_inside g e = Abort) G ->
    rebase (P ++ G ++ R) g (length P) (length P + length G) = Abort.
  Proof using Type.
    clear - P G R. unfold rebase, for_range. replace (length P + length G - length P) with (length G) by lia.
    revert P. induction G as [|e G IH]; intros P HF HX; [by apply Exists_nil in HX|]. cbn [length for_n].
    rewrite (lget_some _ _ e) by (rewrite lookup_app_r, Nat.sub_diag by lia; done). cbn [mbind outcome_bind].
    apply Forall_cons in HF as [[Ha | (Hok & Hf)] HF']; [by rewrite Ha|]. rewrite Hok. cbn [mbind outcome_bind]. rewrite Hf.
    assert (lset (P ++ (e :: G) ++ R) (length P) (f e) = Ok ((P ++ [f e]) ++ G ++ R)) as ->.
    { apply wp_eq, wp_lset; [rewrite !app_length; cbn; lia|]. rewrite insert_app_r_alt by lia. rewrite Nat.sub_diag. cbn. by rewrite <- app_assoc. }
    cbn [mbind outcome_bind].
    replace (S (length P)) with (length (P ++ [f e])) by (rewrite app_length; cbn; lia).
    apply IH; [done|]. apply Exists_cons in HX as [HX|HX]; [congruence|done].
  Qed.

  Definition fill_any (K1 K2 : list nat) (st : fill_st (T := T)) : Prop :=
    let '(i, k, E0, ptr, ind, blocks, tb, tn) := st in
    exists P, E0 = P ++ mjoin (at_block <$> K2) /\ length P = length (mjoin (at_block <$> K1)) /\ i = length P /\ k = length K1 /\
      set_arr ptr (nbr + 1) /\ length ind = length I /\ length blocks = length I /\ set_arr tb MATRIX_TYPE_NUM /\ set_arr tn MATRIX_TYPE_NUM /\
      Forall (fun id => in_range rows cols (at_block id)) K1.
  Lemma fill_any_step K1 id K2 st : I = K1 ++ id :: K2 -> fill_any K1 (id :: K2) st ->
    fill_body make (full roff) (full coff) nbc st = Abort \/
    exists st', fill_body make (full roff) (full coff) nbc st = Ok st' /\ fill_any (K1 ++ [id]) K2 st'.
  Proof.
    intros HI. assert (Hid : id ∈ I) by (rewrite HI; set_solver).
    destruct st as [[[[[[[i k] E0] ptr] ind] blocks] tb] tn].
    intros (P & -> & HP & -> & -> & Hptr & Hind & Hbl & Htb & Htn & Hin).
    assert (Hlen : length (mjoin (at_block <$> K1)) + (length (at_block id) + length (mjoin (at_block <$> K2))) = length E).
    { rewrite <- (bsorted_length roff nbr coff nbc E), <- (all_blocks roff nbr coff nbc E), HI, fmap_app, join_app, app_length. cbn. by rewrite app_length. }
    assert (HG : exists e, e ∈ E' /\ blk e = id). { apply bids_elem in Hid as (e & He & Hb). by exists e. }
    destruct HG as (e1 & He1 & Hb1).
    assert (HG : at_block id <> []).
    { intros Hn. assert (e1 ∈ at_block id) as Hin1.
      { unfold blocks_at, group. apply elem_of_list_In, filter_In. split; [by apply elem_of_list_In|]. unfold has. by rewrite Hb1, Nat.eqb_refl. }
      rewrite Hn in Hin1. by apply elem_of_nil in Hin1. }
    assert (Hblk : Forall (fun e => blk e = id) (at_block id)).
    { apply Forall_forall. intros e He. by apply blocks_at_elem in He as [_ ?]. }
    assert (HR : forall e, mjoin (at_block <$> K2) !! 0 = Some e -> blk e <> id).
    { intros e He Hb. apply elem_of_list_lookup_2 in He. apply elem_of_list_join in He as (L & He & HL).
      apply elem_of_list_fmap in HL as (k & -> & Hk). apply blocks_at_elem in He as [_ He].
      pose proof (increasing_NoDup _ (bids_sorted roff nbr coff nbc E)) as Hnd. rewrite HI in Hnd.
      apply NoDup_app in Hnd as (_ & _ & Hnd). inversion_clear Hnd. congruence. }
    assert (Hk1 : length K1 < length I) by (rewrite HI, app_length; cbn; lia).
    pose proof (bids_length roff nbr coff nbc E) as HIl.
    assert (Hab : blk e1 < nbr * nbc /\ blk e1 / nbc < nbr /\ blk e1 mod nbc < nbc) by (eapply any_blk; eassumption).
    destruct Hab as (B1 & B2 & B3). rewrite Hb1 in B1, B2, B3.
    assert (Hag : block_geometry (full roff) (full coff) nbc id = Ok (id / nbc, id mod nbc, geo id) /\
      ro roff nbc id + rsz roff nbc id <= rows /\ co coff nbc id + csz coff nbc id <= cols) by (eapply any_geometry; eassumption).
    destruct Hag as (HGeo & G1 & G2).
    unfold fill_body. cbn [fmap list_fmap mjoin list_join].
    change (mjoin (at_block id :: (at_block <$> K2))) with (at_block id ++ mjoin (at_block <$> K2)).
    fold (mjoin (at_block <$> K2)). set (R := mjoin (at_block <$> K2)) in *.
    destruct (at_block id) as [|e0 G0] eqn:HG0; [done|].
    rewrite (lget_some _ _ e0) by (rewrite lookup_app_r, Nat.sub_diag by lia; done). cbn [mbind outcome_bind].
    rewrite <- HG0 in *. assert (blk e0 = id) as Hb0.
    { rewrite HG0 in Hblk. by apply Forall_inv in Hblk. }
    rewrite Hb0. rewrite scan_block_spec by (done || (rewrite !app_length; lia)). cbn [mbind outcome_bind].
    rewrite HGeo. cbn [mbind outcome_bind].
    destruct (incr_set ptr (nbr + 1) (id / nbc + 1) Hptr) as (ptr' & -> & Hptr'); [lia|]. cbn [mbind outcome_bind].
    rewrite (aset_ok ind) by lia. cbn [mbind outcome_bind].
    set (lc := BlocksProof.loc (T := T) roff coff nbc).
    assert (Hchk : forall e, e ∈ at_block id -> check_inside (geo id) e = Abort \/
       (check_inside (geo id) e = Ok tt /\ row e < rows /\ col e < cols /\ Elem (wsub (row e) (g_ro (geo id))) (wsub (col e) (g_co (geo id))) (val e) (blk e) = lc e /\
        row (lc e) < rsz roff nbc id /\ col (lc e) < csz coff nbc id)).
    { intros e He. apply blocks_at_elem in He as [_ He]. unfold check_inside, CsbrProof.geo, wadd. cbn [g_ro g_rs g_co g_cs].
      rewrite !wrap_small by lia.
      destruct (Nat.leb_spec (ro roff nbc id) (row e)); [|by left]. cbn [assert_ mbind outcome_bind].
      destruct (Nat.ltb_spec (row e) (ro roff nbc id + rsz roff nbc id)); [|by left]. cbn [assert_ mbind outcome_bind].
      destruct (Nat.leb_spec (co coff nbc id) (col e)); [|by left]. cbn [assert_ mbind outcome_bind].
      destruct (Nat.ltb_spec (col e) (co coff nbc id + csz coff nbc id)); [|by left]. right. split; [done|]. split; [lia|]. split; [lia|].
      unfold lc, BlocksProof.loc. rewrite He. cbn [row col]. rewrite !wsub_small by lia. split; [done|]. lia. }
    destruct (Forall_Exists_dec (fun e => ~ check_inside (geo id) e = Abort) (fun e => check_inside (geo id) e = Abort)
      (fun e => abort_dec (check_inside (geo id) e)) (at_block id)) as [HX|HX]; cycle 1.
    { left. rewrite (rebase_abort P (at_block id) R (geo id) lc); [done| |done].
      apply Forall_forall. intros e He. destruct (Hchk e He) as [|(? & ? & ? & ? & ?)]; [by left|by right]. }
    assert (Hok : forall e, e ∈ at_block id -> check_inside (geo id) e = Ok tt /\ row e < rows /\ col e < cols /\ Elem (wsub (row e) (g_ro (geo id))) (wsub (col e) (g_co (geo id))) (val e) (blk e) = lc e /\
        row (lc e) < rsz roff nbc id /\ col (lc e) < csz coff nbc id).
    { intros e He. destruct (Hchk e He) as [Ha|Ho]; [|done]. exfalso. rewrite Forall_forall in HX. by apply (HX e). }
    rewrite (rebase_spec P (at_block id) R _ lc).
    2:{ apply Forall_forall. intros e He. by destruct (Hok e He) as (? & ? & ? & ? & ?). }
    cbn [mbind outcome_bind].
    replace (length P + length (at_block id) - length P) with (length (at_block id)) by lia.
    assert (Hs : slice (length P) (length (at_block id)) (P ++ (lc <$> at_block id) ++ R) = local id).
    { unfold slice. rewrite drop_app. rewrite take_app_alt; [done|]. by rewrite fmap_length. }
    rewrite Hs. unfold CsbrProof.geo. cbn [g_rs g_cs].
    destruct (Hmake id Hid) as [-> | (B & ty & L & -> & HL & Hty)]; [| by left |].
    { unfold in_range, CgbrProof.local. apply Forall_fmap, Forall_forall. intros e He. by destruct (Hok e He) as (? & ? & ? & ? & ?). }
    cbn [mbind outcome_bind]. rewrite (aset_ok blocks) by lia. cbn [mbind outcome_bind].
    destruct (incr_set tb _ ty Htb Hty) as (tb' & -> & Htb'). cbn [mbind outcome_bind].
    destruct Htn as (ln & -> & Hln). destruct (lookup_lt_is_Some_2 ln ty) as [v Hv]; [lia|].
    rewrite aget_full, (lget_some _ _ _ Hv). cbn [mbind outcome_bind]. rewrite aset_full by lia. cbn [mbind outcome_bind].
    right. eexists. split; [reflexivity|]. unfold fill_any.
    assert (Hdrop : drop (length P + length (at_block id)) (P ++ (lc <$> at_block id) ++ R) = R).
    { rewrite app_assoc. apply drop_app_alt. by rewrite app_length, fmap_length. }
    rewrite Hdrop, take_app. exists (P ++ L). split; [by rewrite <- app_assoc|].
    unfold CgbrProof.local in HL. rewrite fmap_length in HL.
    rewrite fmap_app, join_app, !app_length. cbn [fmap list_fmap length]. cbn [mjoin list_join]. rewrite app_nil_r.
    split; [lia|]. split; [lia|]. split; [apply wrap_small; lia|]. split; [done|]. split; [by rewrite insert_length|]. split; [by rewrite insert_length|].
    split; [done|]. split; [by eexists; split; [done|]; rewrite insert_length|].
    apply Forall_app. split; [done|]. apply Forall_singleton. apply Forall_forall. intros e He. by destruct (Hok e He) as (? & ? & ? & ? & ?).
  Qed.
  Lemma fill_any_while fuel : forall K1 K2 st, I = K1 ++ K2 -> fill_any K1 K2 st -> length K2 < fuel ->
    let r := while_ fuel (fun '(i, _, E, _, _, _, _, _) => Ok (i <? length E)) (fill_body make (full roff) (full coff) nbc) st in
    r = Abort \/ in_range rows cols E'.
  Proof.
    induction fuel as [|f IH]; intros K1 K2 st HI Hst Hf; [lia|]. cbn [while_]. destruct st as [[[[[[[i k] E0] ptr] ind] blocks] tb] tn] eqn:Est.
    destruct K2 as [|id K2].
    - right. rewrite app_nil_r in HI. destruct Hst as (P & _ & _ & _ & _ & _ & _ & _ & _ & _ & Hin).
      rewrite <- HI in Hin. rewrite <- (all_blocks roff nbr coff nbc E). unfold in_range in *.
      apply Forall_forall. intros e (L & He & HL)%elem_of_list_join. apply elem_of_list_fmap in HL as (id & -> & Hid).
      rewrite Forall_forall in Hin. specialize (Hin id Hid). rewrite Forall_forall in Hin. by apply Hin.
    - assert (Hlt : (i <? length E0) = true).
      { destruct Hst as (P & -> & HP & -> & _). apply Nat.ltb_lt. rewrite app_length. cbn.
        change (mjoin (at_block id :: (at_block <$> K2))) with (at_block id ++ mjoin (at_block <$> K2)). rewrite app_length.
        assert (id ∈ I) as Hid by (rewrite HI; set_solver). apply bids_elem in Hid as (e & He & Hb).
        assert (e ∈ at_block id) as Hin.
        { unfold blocks_at, group. apply elem_of_list_In, filter_In. split; [by apply elem_of_list_In|]. unfold has. by rewrite Hb, Nat.eqb_refl. }
        destruct (at_block id); [by apply elem_of_nil in Hin|cbn; lia]. }
      rewrite Hlt. cbn [mbind outcome_bind].
      destruct (fill_any_step K1 id K2 _ HI Hst) as [-> | (st' & -> & Hst')]; [by left|]. cbn [mbind outcome_bind].
      apply (IH (K1 ++ [id]) K2); [by rewrite <- app_assoc|done|cbn in Hf; lia].
  Qed.
  Lemma fill_outside : ~ in_range rows cols E ->
    cgbr_fill make (Coo rows cols E) E' (full roff) nbr (full coff) nbc (length I) = Abort.
  Proof.
    intros Hout. unfold cgbr_fill, fill_blocks.
    destruct (fill_any_while (S (length E')) [] I (0, 0, E', new_arr0 0 (wadd nbr 1), new_arr (length I), new_arr (length I), new_arr0 0 MATRIX_TYPE_NUM, new_arr0 0 MATRIX_TYPE_NUM)) as [-> | Hin]; [done| | |done|].
    - exists []. rewrite (all_blocks roff nbr coff nbc E). unfold wadd. rewrite wrap_small by lia. unfold new_arr. rewrite !replicate_length.
      repeat (split; [first [done|apply new_arr0_set]|]). constructor.
    - rewrite bsorted_length. pose proof (bids_length roff nbr coff nbc E). lia.
    - exfalso. apply Hout. eapply inside_all, Hin.
  Qed.
End fill_outside.
