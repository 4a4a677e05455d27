(** BlockIo2Proof.v: the Cgbr reader of BlockIo.v *)
From Verif Require Export Cgbr3Proof BlockIoProof.
From Coq Require Import ZifyNat ZifyBool.

(** ** reading at positions *)
Section at_position.
  Context {T : Type} `{Widths} (RT : repr T) (k : nat) (Hk : index_bytes k) (HRT : storable RT).
  Context (h : bytes) (F : list (elem T)) (Hh : length h = 6 * k) (Hfit : Forall record_fits F).
  Implicit Types (e : elem T).
  Notation file := (h ++ concat (enc_record RT k <$> F)).
  Notation rs := (record_size RT k).
  Definition record_at (j : nat) : nat := 6 * k + j * rs.
  Notation rec_at := record_at.

  Lemma records_length (l : list (elem T)) : length (concat (enc_record RT k <$> l)) = length l * rs.
  Proof using HRT. induction l as [|e l IH]; [done|]. cbn [fmap list_fmap concat length]. rewrite app_length, (enc_record_length RT k HRT). fold (enc_record RT k <$> l). rewrite IH. reflexivity. Qed.
  Lemma file_length : length file = rec_at (length F).
  Proof using HRT Hh. rewrite app_length, records_length. unfold record_at. lia. Qed.
  Lemma drop_records j : j <= length F -> drop (rec_at j) file = concat (enc_record RT k <$> drop j F).
  Proof using HRT Hh.
    intros Hj. unfold record_at. rewrite drop_app_ge by lia. rewrite Hh. replace (6 * k + j * rs - 6 * k) with (j * rs) by lia.
    rewrite <- (take_drop j F) at 1. rewrite fmap_app, concat_app. rewrite drop_app_alt; [done|]. by rewrite records_length, take_length, Nat.min_l by lia.
  Qed.
  Lemma fread_at_enc {A} (R : repr A) (v : A) b p rest : faithful (fun w => w = v) R -> drop p file = enc R v ++ rest ->
    fread_at R b file p = (1, Some v, p + sz R) /\ drop (p + sz R) file = rest.
  Proof using.
    intros Hf Hd. unfold fread_at. rewrite Hd, fread1_enc by done. split; [done|]. rewrite <- drop_drop, Hd.
    destruct Hf as [_ Hf]. destruct (Hf v eq_refl) as [<- _]. apply drop_app.
  Qed.
  Lemma record_parts e : record_fits e -> faithful (fun w => w = blk e) (index_repr k) /\ faithful (fun w => w = row e) (index_repr k) /\
    faithful (fun w => w = col e) (index_repr k) /\ faithful (fun w => w = val e) RT.
  Proof using Hk HRT.
    intros (F1 & F2 & F3). split; [apply (faithful_RI k Hk); by intros ? ->|]. split; [apply (faithful_RI k Hk); by intros ? ->|].
    split; [apply (faithful_RI k Hk); by intros ? ->|apply (faithful_RT RT HRT)].
  Qed.
  Lemma reads_at j e b1 b2 b3 b4 : F !! j = Some e -> exists p1 p2 p3,
    fread_at (index_repr k) b1 file (rec_at j) = (1, Some (blk e), p1) /\ fread_at (index_repr k) b2 file p1 = (1, Some (row e), p2) /\
    fread_at (index_repr k) b3 file p2 = (1, Some (col e), p3) /\ fread_at RT b4 file p3 = (1, Some (val e), rec_at (S j)).
  Proof using Hk HRT Hh Hfit.
    intros Hj. pose proof (lookup_lt_Some _ _ _ Hj) as Hl. rewrite Forall_lookup in Hfit.
    destruct (record_parts e (Hfit _ _ Hj)) as (P1 & P2 & P3 & P4).
    pose proof (drop_records j ltac:(lia)) as Hd. rewrite (drop_S _ _ _ Hj) in Hd. cbn [fmap list_fmap concat] in Hd. unfold enc_record at 2 in Hd. rewrite <- !app_assoc in Hd.
    destruct (fread_at_enc (index_repr k) (blk e) b1 _ _ P1 Hd) as [R1 D1].
    destruct (fread_at_enc (index_repr k) (row e) b2 _ _ P2 D1) as [R2 D2].
    destruct (fread_at_enc (index_repr k) (col e) b3 _ _ P3 D2) as [R3 D3].
    destruct (fread_at_enc RT (val e) b4 _ _ P4 D3) as [R4 D4].
    eexists _, _, _. split; [exact R1|]. split; [exact R2|]. split; [exact R3|]. rewrite R4. f_equal. unfold record_at, record_size. cbn [sz index_repr]. lia.
  Qed.
  Lemma skip_at j e b : F !! j = Some e -> skip_record RT k b file (rec_at j) = (4, Some (blk e), rec_at (S j)).
  Proof using Hk HRT Hh Hfit.
    intros Hj. unfold skip_record. destruct (reads_at j e b None None None Hj) as (p1 & p2 & p3 & -> & -> & -> & ->). done.
  Qed.
  Lemma fread_at_end {A} (R : repr A) (b : option A) : 0 < sz R -> fread_at R b file (rec_at (length F)) = (0, b, rec_at (length F)).
  Proof using HRT Hh.
    intros Hp. unfold fread_at. rewrite drop_records by lia. rewrite drop_all. cbn [fmap list_fmap concat].
    rewrite fread1_short by (cbn; lia). cbn [Nat.eqb]. rewrite file_length. by rewrite Nat.max_id.
  Qed.
  Lemma skip_end b : skip_record RT k b file (rec_at (length F)) = (0, b, rec_at (length F)).
  Proof using Hk HRT Hh.
    unfold skip_record. destruct Hk as [Hk1 _], HRT as [HR1 _].
    rewrite fread_at_end by done. rewrite fread_at_end by done. rewrite fread_at_end by done. rewrite fread_at_end by done. done.
  Qed.
  Lemma read_element_at j e g : F !! j = Some e -> check_inside g e = Ok tt ->
    read_element RT k file (blk e) g (rec_at j) = Ok (Elem (wsub (row e) (g_ro g)) (wsub (col e) (g_co g)) (val e) (blk e), rec_at (S j)).
  Proof using Hk HRT Hh Hfit.
    intros Hj Hg. unfold read_element. destruct (reads_at j e None None None None Hj) as (p1 & p2 & p3 & -> & -> & -> & ->).
    cbn [use mbind outcome_bind]. rewrite Nat.eqb_refl. cbn [assert_ mbind outcome_bind].
    assert (check_inside g (Elem (row e) (col e) (val e) (blk e)) = Ok tt) as -> by exact Hg. done.
  Qed.
  (** a stretch of records of one block *)
  Lemma read_elements j0 (L : list (elem T)) id g (f : elem T -> elem T) :
    (forall i e, L !! i = Some e -> F !! (j0 + i) = Some e) ->
    Forall (fun e => blk e = id /\ check_inside g e = Ok tt /\ Elem (wsub (row e) (g_ro g)) (wsub (col e) (g_co g)) (val e) (blk e) = f e) L ->
    for_range 0 (length L) (fun _ '(p, acc) => '(e, p) ← read_element RT k file id g p; Ok (p, acc ++ [e])) (rec_at j0, []) =
      Ok (rec_at (j0 + length L), f <$> L).
  Proof using Hk HRT Hh Hfit.
    intros HL Hf. apply wp_eq. eapply wp_mono.
    - apply (wp_for_range (fun i st => st = (rec_at (j0 + i), f <$> take i L))).
      + lia.
      + by rewrite Nat.add_0_r.
      + intros i st Hi ->. destruct (lookup_lt_is_Some_2 L i) as [e He]; [lia|].
        rewrite Forall_lookup in Hf. destruct (Hf _ _ He) as (Hb & Hg & Hfe). rewrite <- Hb.
        rewrite (read_element_at (j0 + i) e g (HL _ _ He) Hg). cbn [mbind outcome_bind wp].
        rewrite Hfe, (take_S_r _ _ _ He), fmap_app. by rewrite Nat.add_succ_r.
    - intros st ->. by rewrite take_ge by lia.
  Qed.
End at_position.

(** ** the loop *)
Section loop.
  Context {T : Type} `{Scalar T} `{Widths} (RT : repr T) (k : nat) (Hk : index_bytes k) (HRT : storable RT).
  Context (roff : list nat) (nbr rows : nat) (coff : list nat) (nbc cols : nat) (e0 : elem T) (F : list (elem T)).
  Context (Hr : blocking roff nbr rows) (Hc : blocking coff nbc cols) (HE : in_range rows cols F).
  Context (Hne : F <> []) (Hnr : nbr <= rows) (Hnc : nbc <= cols) (Hids : numbered roff nbr coff nbc F).
  Context (Hrows : rows + 1 < itW) (Hcols : cols < itW) (Hnnz : S (length F) < itW).
  Context (make : factory (T := T)).
  Notation at_block := (blocks_at roff nbr coff nbc F).
  Notation local := (local roff nbr coff nbc F).
  Notation made_block := (made_block roff nbr coff nbc F make).
  Notation made_type := (made_type roff nbr coff nbc F make).
  Notation lc := (BlocksProof.loc roff coff nbc).
  (** the blocks the loop makes: those of F and, if no other element lies in its block, that of e0 *)
  Context (I : list nat) (Hjoin : mjoin (at_block <$> I) = F) (Hhead : head I = Some (blk e0)) (Hnodup : NoDup I).
  Context (Htail : forall id, id ∈ tail I -> at_block id <> []) (HIl : length I <= S (length F)).
  Context (Hgeo : forall id, id ∈ I -> id / nbc < nbr /\ block_geometry (full roff) (full coff) nbc id = Ok (id / nbc, id mod nbc, geo roff coff nbc id)).
  Context (Hmake : forall id, id ∈ I -> exists B ty L, make (local id) (rsz roff nbc id) (csz coff nbc id) = Ok (B, ty, L) /\
     length L = length (local id) /\ ty < MATRIX_TYPE_NUM).
  Context (h : bytes) (Hh : length h = 6 * k) (Hfit : Forall record_fits (e0 :: F)).
  Notation file := (h ++ concat (enc_record RT k <$> e0 :: F)).
  Notation rec_at := (record_at RT k).
  Notation pos K1 := (length (mjoin (at_block <$> K1))).

  Lemma F_blocks : mjoin (at_block <$> I) = F.
  Proof using Hjoin. exact Hjoin. Qed.
  Lemma made_ok id : id ∈ I -> make (local id) (rsz roff nbc id) (csz coff nbc id) = Ok (made_block id, made_type id, made_left roff nbr coff nbc F make id) /\
     made_type id < MATRIX_TYPE_NUM.
  Proof using Hmake.
    intros Hid. destruct (Hmake id Hid) as (B & ty & L & HB & HL & Hty). unfold CgbrProof.made_block, CgbrProof.made_type, CgbrProof.made_left, made. rewrite HB. done.
  Qed.
  Lemma F_lookup K1 id K2 j e : I = K1 ++ id :: K2 -> at_block id !! j = Some e -> F !! (pos K1 + j) = Some e.
  Proof using All.
    intros HI Hj. enough (Hx : mjoin (at_block <$> I) !! (pos K1 + j) = Some e) by (rewrite F_blocks in Hx; exact Hx).
    rewrite HI, fmap_app, join_app. rewrite lookup_app_r by lia.
    replace (pos K1 + j - pos K1) with j by lia. cbn. rewrite lookup_app_l; [done|by eapply lookup_lt_Some].
  Qed.
  Lemma pos_snoc K1 id : pos (K1 ++ [id]) = pos K1 + length (at_block id).
  Proof using All. rewrite fmap_app, join_app, app_length. cbn. by rewrite app_nil_r. Qed.
  Lemma pos_all : pos I = length F.
  Proof using All. by rewrite F_blocks. Qed.
  Lemma F_next K1 id id' K2 : I = K1 ++ id :: id' :: K2 -> exists e, F !! (pos K1 + length (at_block id)) = Some e /\ blk e = id' /\ at_block id' !! 0 = Some e.
  Proof using All.
    intros HI. assert (Hid : id' ∈ tail I) by (rewrite HI; destruct K1; cbn; set_solver). pose proof (Htail id' Hid) as Hn.
    destruct (at_block id') as [|e L] eqn:HL; [done|]. exists e. split.
    - rewrite <- pos_snoc. rewrite <- (Nat.add_0_r (pos (K1 ++ [id]))). eapply (F_lookup _ id' K2); [by rewrite HI, <- app_assoc|]. by rewrite HL.
    - split; [|done]. assert (e ∈ at_block id') as He by (rewrite HL; left). by apply blocks_at_elem in He as [_ ?].
  Qed.

  (** what the loop has built when K1 is done; [st]: everything but the position and b *)
  Definition tail_state (prev : option nat) (K1 : list nat) : option nat * nat * nat * arr nat * arr nat * arr (gblock T) * arr nat * arr nat :=
    (prev, length K1, pos K1, full (counters ((fun id => id / nbc) <$> K1) nbr), part ((fun id => id mod nbc) <$> K1) (length I),
     part (made_block <$> K1) (length I), full (tallies ((fun id => (made_type id, 1)) <$> K1)),
     full (tallies ((fun id => (made_type id, length (at_block id))) <$> K1))).
  Definition with_pos (p : nat) (b : option nat) (t : option nat * nat * nat * arr nat * arr nat * arr (gblock T) * arr nat * arr nat) : rcgbr_st (T := T) :=
    let '(prev, kk, start, ptr, ind, blocks, tb, tn) := t in (p, b, prev, kk, start, ptr, ind, blocks, tb, tn).

  Lemma drop1_records j : (e0 :: F) !! S j = F !! j.
  Proof using All. done. Qed.
  (** one block is complete: its records have been passed, and either the first record of the
      next block has just been read (next = its id) or the end of the file was met *)
  Lemma step_block i K1 id K2 p b (fr : nat) bv :
    I = K1 ++ id :: K2 -> i = pos K1 + length (at_block id) ->
    skip_record RT k b file (rec_at (S i)) = (fr, Some bv, p) ->
    (fr = 4 /\ bv <> id /\ p = rec_at (S (S i)) \/ fr = 0 /\ p = rec_at (S i)) ->
    rcgbr_body RT k make file (full roff) (full coff) nbc i (with_pos (rec_at (S i)) b (tail_state (Some id) K1)) =
      Ok (with_pos (rec_at (S (S i))) (Some bv) (tail_state (Some bv) (K1 ++ [id]))).
  Proof using All.
    intros HI -> Hskip Hcase. assert (Hid : id ∈ I) by (rewrite HI; set_solver).
    destruct (made_ok id Hid) as (Hm & Hmt).
    destruct (Hgeo id Hid) as (Hd1 & Hg).
    assert (Hlen : pos (K1 ++ [id]) <= length F).
    { assert (HF : pos I = length F) by apply pos_all. rewrite <- HF, HI. replace (K1 ++ id :: K2) with ((K1 ++ [id]) ++ K2) by (by rewrite <- app_assoc).
      rewrite (fmap_app _ (K1 ++ [id])), (join_app (at_block <$> (K1 ++ [id]))), (app_length (mjoin (at_block <$> (K1 ++ [id])))). lia. }
    rewrite pos_snoc in Hlen. assert (Hk1 : length K1 < length I) by (rewrite HI, app_length; cbn; lia).
    unfold with_pos, tail_state at 1. unfold rcgbr_body. rewrite Hskip. cbn [use mbind outcome_bind].
    assert (Hcond : negb (bv =? id) || (fr =? 0) = true).
    { destruct Hcase as [(-> & Hb & _)|[-> _]]; [|by rewrite orb_true_r]. by rewrite (proj2 (Nat.eqb_neq bv id)). }
    rewrite Hcond.
    rewrite Hg. cbn [mbind outcome_bind].
    rewrite incr_step by first [exact Hd1|rewrite fmap_length; lia]. cbn [mbind outcome_bind].
    pose proof (part_set ((fun id => id mod nbc) <$> K1) (length I) (id mod nbc)) as Hp1. rewrite fmap_length in Hp1.
    rewrite Hp1 by lia. cbn [mbind outcome_bind].
    rewrite wsub_small by lia. replace (pos K1 + length (at_block id) - pos K1) with (length (at_block id)) by lia.
    assert (Hseek : seek_back p (if fr =? 4 then wadd (length (at_block id)) 1 * record_size RT k else length (at_block id) * record_size RT k) = rec_at (S (pos K1))).
    { assert (wadd (length (at_block id)) 1 = length (at_block id) + 1) as -> by (apply wrap_small; lia).
      unfold seek_back. destruct Hcase as [(-> & _ & ->)|[-> ->]]; cbn [Nat.eqb]; unfold record_at; rewrite (proj2 (Nat.leb_le _ _)) by nia; nia. }
    rewrite Hseek.
    pose proof (read_elements RT k Hk HRT h (e0 :: F) Hh Hfit (S (pos K1)) (at_block id) id (geo roff coff nbc id) lc) as Hre.
    rewrite Hre; clear Hre.
    2: { intros j e Hj. cbn [Nat.add lookup list_lookup]. by eapply F_lookup. }
    2: { apply Forall_forall. intros e He. apply blocks_at_elem in He as [He Hb]. split; [done|]. rewrite <- Hb.
         rewrite (check_inside_ok roff nbr rows coff nbc cols F Hr Hc HE e He) by lia. split; [done|]. unfold geo. cbn [g_ro g_co].
         destruct (wsub_row roff nbr rows coff nbc cols F Hr Hc HE e He Hrows) as [_ ->].
         rewrite (wsub_col roff nbr rows coff nbc cols F Hr Hc HE e He) by lia. done. }
    cbn [mbind outcome_bind]. unfold geo. cbn [g_rs g_cs].
    match goal with |- context [make ?a ?b ?c] => replace (make a b c) with (Ok (made_block id, made_type id, made_left roff nbr coff nbc F make id)) by (symmetry; exact Hm) end. cbn [mbind outcome_bind].
    pose proof (part_set (made_block <$> K1) (length I) (made_block id)) as Hp2. rewrite fmap_length in Hp2.
    rewrite Hp2 by lia. cbn [mbind outcome_bind].
    rewrite tallies_incr by (done || (rewrite sum_ones; lia)). cbn [mbind outcome_bind].
    rewrite tallies_get by done. cbn [mbind outcome_bind].
    set (N := (fun id => (made_type id, length (at_block id))) <$> K1) in *.
    assert (HN : tally N (made_type id) <= pos K1). { etrans; [apply tally_le|]. unfold N. rewrite sum_sizes. lia. }
    assert (wadd (tally N (made_type id)) (length (at_block id)) = tally N (made_type id) + length (at_block id)) as -> by (apply wrap_small; lia).
    rewrite tallies_set by done. cbn [mbind outcome_bind].
    assert (wadd (length K1) 1 = length (K1 ++ [id])) as -> by (rewrite app_length; cbn; apply wrap_small; lia).
    unfold tail_state. rewrite !fmap_app. cbn [fmap list_fmap]. fold N.
    assert (record_at RT k (S (pos K1) + length (at_block id)) + record_size RT k = rec_at (S (S (pos K1 + length (at_block id))))) as ->.
    { unfold record_at. cbn [Nat.add Nat.mul]. lia. }
    rewrite join_app. cbn [mjoin list_join]. rewrite app_nil_r, (app_length (mjoin (at_block <$> K1))).
    done.
  Qed.
  (** a record of the current block *)
  Lemma step_same i K1 id K2 b j : I = K1 ++ id :: K2 -> i = pos K1 + j -> j < length (at_block id) ->
    rcgbr_body RT k make file (full roff) (full coff) nbc i (with_pos (rec_at (S i)) b (tail_state (Some id) K1)) =
      Ok (with_pos (rec_at (S (S i))) (Some id) (tail_state (Some id) K1)).
  Proof using All.
    intros HI -> Hj. destruct (lookup_lt_is_Some_2 _ _ Hj) as [e He].
    pose proof (F_lookup K1 id K2 j e HI He) as Hl.
    assert (Hb : blk e = id). { apply elem_of_list_lookup_2 in He. by apply blocks_at_elem in He as [_ ?]. }
    unfold with_pos, tail_state at 1. unfold rcgbr_body.
    rewrite (skip_at RT k Hk HRT h (e0 :: F) Hh Hfit (S (pos K1 + j)) e b Hl). cbn [use mbind outcome_bind].
    rewrite Hb, Nat.eqb_refl. done.
  Qed.

  (** before turn i the blocks K1 are done, id is being passed *)
  Definition J (i : nat) (s : rcgbr_st (T := T)) : Prop :=
    exists b, if decide (i = S (length F)) then exists p bv, s = with_pos p (Some bv) (tail_state (Some bv) I)
    else exists K1 id K2 j, I = K1 ++ id :: K2 /\ i = pos K1 + j /\ j <= length (at_block id) /\
      (i = 0 \/ b = Some id) /\ s = with_pos (rec_at (S i)) b (tail_state (Some id) K1).
  Lemma loop_run : exists p bv, for_range 0 (S (length F)) (rcgbr_body RT k make file (full roff) (full coff) nbc)
      (with_pos (rec_at 1) None (tail_state (Some (blk e0)) [])) = Ok (with_pos p (Some bv) (tail_state (Some bv) I)).
  Proof using All.
    assert (Hw : wp (for_range 0 (S (length F)) (rcgbr_body RT k make file (full roff) (full coff) nbc)
      (with_pos (rec_at 1) None (tail_state (Some (blk e0)) []))) (J (S (length F)))).
    { apply wp_for_range; [lia| |].
      - exists None. rewrite decide_False by lia.
        assert (exists K2, I = blk e0 :: K2) as (K2 & HI).
        { pose proof Hhead as Hb. clear - Hb. destruct I as [|id K2]; [done|]. injection Hb as ->. eauto. }
        exists [], (blk e0), K2, 0. split; [done|]. split; [done|]. split; [lia|]. split; [by left|done].
      - intros i s Hi (b & HJ). rewrite decide_False in HJ by lia. destruct HJ as (K1 & id & K2 & j & HI & Hij & Hj & Hb & ->).
        assert (Hid : id ∈ I) by (rewrite HI; set_solver).
        destruct (decide (j < length (at_block id))) as [Hlt|Hge].
        + rewrite (step_same i K1 id K2 b j HI Hij Hlt). cbn [wp]. exists (Some id).
          assert (Hle : pos K1 + length (at_block id) <= length F).
          { rewrite <- pos_snoc. assert (HF : pos I = length F) by apply pos_all. rewrite <- HF, HI. replace (K1 ++ id :: K2) with ((K1 ++ [id]) ++ K2) by (by rewrite <- app_assoc).
            rewrite (fmap_app _ (K1 ++ [id])), (join_app (at_block <$> (K1 ++ [id]))), (app_length (mjoin (at_block <$> (K1 ++ [id])))). lia. }
          rewrite decide_False by lia. exists K1, id, K2, (S j). split; [done|]. split; [lia|]. split; [lia|]. split; [by right|done].
        + assert (j = length (at_block id)) as -> by lia.
          destruct K2 as [|id' K2].
          * assert (Hend : i = length F). { rewrite Hij, <- pos_snoc, <- HI. apply pos_all. }
            destruct Hb as [Hb| ->]; [exfalso; destruct F; [done|cbn in Hend; lia]|].
            rewrite (step_block i K1 id [] (rec_at (S i)) (Some id) 0 id HI Hij).
            -- cbn [wp]. exists None. rewrite decide_True by lia. rewrite <- HI. eauto.
            -- rewrite Hend. apply (skip_end RT k Hk HRT h (e0 :: F) Hh).
            -- by right.
          * destruct (F_next K1 id id' K2 HI) as (e & He & Hbe & He0).
            assert (Hlt : i < length F) by (apply lookup_lt_Some in He; lia).
            rewrite (step_block i K1 id (id' :: K2) (rec_at (S (S i))) b 4 id' HI Hij).
            -- cbn [wp]. exists (Some id'). rewrite decide_False by lia.
               exists (K1 ++ [id]), id', K2, 1. split; [by rewrite HI, <- app_assoc|]. split; [rewrite pos_snoc; lia|].
               split; [apply lookup_lt_Some in He0; lia|]. split; [by right|done].
            -- rewrite <- Hbe. apply (skip_at RT k Hk HRT h (e0 :: F) Hh Hfit (S i) e). cbn. by rewrite Hij.
            -- left. split; [done|]. split; [|done]. intros ->.
               pose proof Hnodup as Hnd. rewrite HI in Hnd.
               apply NoDup_app in Hnd as (_ & _ & Hnd). inversion_clear Hnd as [|? ? Hni _]. apply Hni. left. }
    apply wp_exists in Hw as (s & -> & (b & HJ)). rewrite decide_True in HJ by done. destruct HJ as (p & bv & ->). eauto.
  Qed.
End loop.

(** ** multiplying with the blocks of F under a list I of block numbers that may also name blocks
    F has no element in *)
Section matrix.
  Context {T : Type} `{Scalar T} `{Widths}.
  Context (roff : list nat) (nbr rows : nat) (coff : list nat) (nbc cols : nat) (F : list (elem T)).
  Context (Hr : blocking roff nbr rows) (Hc : blocking coff nbc cols) (HE : in_range rows cols F).
  Context (Hrows : rows + 1 < itW) (make : factory (T := T)) (tag : mblock T -> nat) (dense : nat -> Prop).
  Notation at_block := (blocks_at roff nbr coff nbc F).
  Notation local := (local roff nbr coff nbc F).
  Notation made_block := (made_block roff nbr coff nbc F make).
  Notation made_type := (made_type roff nbr coff nbc F make).
  Notation made_left := (made_left roff nbr coff nbc F make).
  Context (I : list nat) (HI : I = bids roff nbr coff nbc F \/ exists id0, I = id0 :: bids roff nbr coff nbc F /\ at_block id0 = []).
  Notation brs' := ((fun id => id / nbc) <$> I).
  Context (Hsorted : ksorted (fun n => n) brs') (Hrange : forall id, id ∈ I -> id / nbc < nbr /\ id mod nbc < nbc).
  Context (Hmk : forall id, id ∈ I -> exists B ty L, makes make tag (local id) (rsz roff nbc id) (csz coff nbc id) B ty L /\ (~ dense id -> ~ is_dense (gb_mat B))).
  Context (one : T) (SR : exact_arith T one) (Hdist : forall id, id ∈ I -> dense id -> distinct_coords (local id)) (Hdec : forall id, dense id \/ ~ dense id).
  Definition matrix_of (n : nat) : cgbr T :=
    Cgbr rows cols n nbr nbc (length I) (full roff) (full coff) (full (made_block <$> I))
      (full (ptrs brs' nbr)) (full ((fun id => id mod nbc) <$> I))
      (full (tallies ((fun id => (made_type id, 1)) <$> I)))
      (full (tallies ((fun id => (made_type id, length (at_block id))) <$> I))).

  Lemma made_makes' id : id ∈ I ->
    makes make tag (local id) (rsz roff nbc id) (csz coff nbc id) (made_block id) (made_type id) (made_left id) /\
    (~ dense id -> ~ is_dense (gb_mat (made_block id))).
  Proof using Hmk.
    intros Hid. destruct (Hmk id Hid) as (B & ty & L & HM & HD). pose proof (mk_ok _ _ _ _ _ _ _ _ HM) as Hok.
    unfold CgbrProof.made_block, CgbrProof.made_type, CgbrProof.made_left, made. rewrite Hok. done.
  Qed.
  Lemma local_range id : id ∈ I -> in_range (rsz roff nbc id) (csz coff nbc id) (local id).
  Proof using All.
    intros Hid. destruct (decide (id ∈ bids roff nbr coff nbc F)) as [Hin|Hni]; [by apply (loc_range _ _ _ _ _ _ _ Hr Hc HE)|].
    destruct HI as [->|(id0 & -> & Hz)]; [done|]. apply elem_of_cons in Hid as [->|?]; [|done]. unfold CgbrProof.local. rewrite Hz. constructor.
  Qed.
  Lemma geometry_in id : id ∈ I -> co coff nbc id + csz coff nbc id <= cols /\
     nth (S (id / nbc)) roff 0 - nth (id / nbc) roff 0 = rsz roff nbc id.
  Proof using All.
    intros Hid. destruct (Hrange id Hid) as [R1 R2]. unfold co, csz, rsz.
    pose proof (blocking_le _ _ _ (S (id mod nbc)) Hc ltac:(lia)).
    pose proof (blocking_mono _ _ _ (id mod nbc) (S (id mod nbc)) Hc ltac:(lia) ltac:(lia)). lia.
  Qed.
  Lemma nonzeros_in n j : j < length I -> exists c, bk_nonzeros (cgbr_view cgbr1_nonzeros (matrix_of n)) j = Ok c.
  Proof using Hmk.
    intros [id Hid]%lookup_lt_is_Some. unfold cgbr_view, matrix_of. cbn [bk_nonzeros cg_blocks]. rewrite aget_full.
    rewrite (lget_some _ _ (made_block id)) by (by rewrite list_lookup_fmap, Hid). cbn [mbind outcome_bind]. eexists.
    apply (mk_nz _ _ _ _ _ _ _ _ (proj1 (made_makes' id (elem_of_list_lookup_2 _ _ _ Hid)))).
  Qed.
  Lemma blocks_in n x j bi : cols <= length x -> brs' !! j = Some bi ->
    block_does (cgbr_view cgbr1_nonzeros (matrix_of n)) x j (nth (S bi) roff 0 - nth bi roff 0)
      (fun r => (fun j i => row_acc (at_block (nth j I 0)) x i) j (nth bi roff 0 + r)).
  Proof using All.
    intros Hx Hj b o. rewrite list_lookup_fmap in Hj. destruct (I !! j) as [id|] eqn:Hid; [|done]. injection Hj as <-.
    assert (Hin : id ∈ I) by (by eapply elem_of_list_lookup_2). cbv beta. rewrite (nth_lookup_Some I j 0 id Hid).
    destruct (Hrange id Hin) as [R1 R2]. destruct (geometry_in id Hin) as [G1 G2].
    destruct (made_makes' id Hin) as [HM HD].
    unfold one_block, cgbr_view, matrix_of. cbn [bk_ind bk_coff bk_spmv cg_ind cg_coff cg_blocks].
    eapply performs_lift; [rewrite aget_full; apply lget_some; rewrite list_lookup_fmap, Hid; reflexivity|].
    eapply performs_lift; [apply (blocking_get _ _ _ _ Hc); lia|]. fold (co coff nbc id).
    eapply performs_lift; [rewrite aget_full; apply lget_some; rewrite list_lookup_fmap, Hid; reflexivity|].
    rewrite G2. eapply performs_ext; [|apply (mk_spmv _ _ _ _ _ _ _ _ HM); lia].
    intros r y _. cbv beta.
    rewrite (mblock_value_exact (local id) (rsz roff nbc id) (csz coff nbc id) (local_range id Hin) _ _ _ _ _ one SR).
    - unfold CgbrProof.local. by rewrite (loc_row_acc _ _ _ _ _ _ _ Hr Hc HE).
    - by apply (mk_same _ _ _ _ _ _ _ _ HM).
    - destruct (Hdec id) as [Hd|Hd]; [destruct (gb_mat (made_block id)); try done; by apply Hdist|].
      specialize (HD Hd). destruct (gb_mat (made_block id)); try done.
  Qed.
  (** a block without elements adds nothing *)
  Lemma total_in x i y : i < rows ->
    fold_left (fun y j => row_acc (at_block (nth j I 0)) x i y) (row_blocks roff nbr brs' i) y = row_acc (isort (bykey col) F) x i y.
  Proof using All.
    intros Hi. rewrite <- (blocks_total roff nbr rows coff nbc cols F Hr Hc HE x i y Hi).
    set (key := fun id : nat => id / nbc).
    assert (Hslice : forall (K : list nat), ksorted key K ->
      fold_left (fun y j => row_acc (at_block (nth j K 0)) x i y) (row_blocks roff nbr (key <$> K) i) y =
      fold_left (fun y id => row_acc (at_block id) x i y) (bfilter (has key (block_of roff nbr i)) K) y).
    { intros K HK. unfold row_blocks. set (bi := block_of roff nbr i).
      pose proof (sorted_slice key K bi HK) as Hsl. rewrite cntlt_S in Hsl.
      replace (cntlt (key <$> K) bi + cnteq (key <$> K) bi - cntlt (key <$> K) bi) with (cnteq (key <$> K) bi) in Hsl by lia.
      rewrite (fold_seq_slice (fun y id => row_acc (at_block id) x i y) _ K).
      - by rewrite Hsl.
      - intros k id acc Hk Hid. rewrite (nth_lookup_Some K k 0 id Hid). done.
      - rewrite <- cntlt_S. etrans; [apply cntlt_le|]. by rewrite fmap_length. }
    assert (Hks : ksorted key I) by (unfold ksorted in *; by rewrite StronglySorted_fmap_iff in Hsorted).
    assert (Hks0 : ksorted key (bids roff nbr coff nbc F)).
    { pose proof (brs_sorted roff nbr coff nbc F) as Hb. unfold ksorted, brs in *. by rewrite StronglySorted_fmap_iff in Hb. }
    unfold brs. change (fun id : nat => id / nbc) with key. rewrite (Hslice I Hks), (Hslice _ Hks0).
    destruct HI as [->|(id0 & -> & Hz)]; [done|]. unfold bfilter. cbn [List.filter]. destruct (has key (block_of roff nbr i) id0); [|done].
    cbn [fold_left]. by rewrite Hz.
  Qed.
  Lemma matrix_of_spmv n parts balanced x y (b : buf) : cols <= length x -> length y = rows -> good_partition nbr brs' parts ->
    all_schedules (cgbr_spmv (matrix_of n) balanced parts x b) (heap_of b y) tt (heap_of b (y_plus_Ax F cols x y)).
  Proof using All.
    intros Hx Hy [Hlen Hgood]. rewrite <- (spmv_by_column_exact one SR rows F cols) by done. unfold spmv_by_column, spmv_in_order.
    assert (Hb : Forall (fun bi => bi < nbr) brs').
    { apply Forall_fmap, Forall_forall. intros id Hid. cbn. by apply Hrange. }
    unfold cgbr_spmv. destruct balanced.
    - pose proof (performs_spmv_balanced (cgbr_view cgbr1_nonzeros (matrix_of n)) x roff nbr rows brs' (fun j i => row_acc (at_block (nth j I 0)) x i)
        Hr eq_refl eq_refl (fun bi Hbi => blocking_get _ _ _ _ Hr Hbi) Hsorted ltac:(lia) (fun j bi => blocks_in n x j bi Hx) b) as Hp.
      rewrite <- Hy in Hp. eapply eq_rect; [apply (performs_vector _ b y _ _ Hp); by intros []|].
      f_equal. apply imap_ext_lt. intros i yi Hi. apply total_in. lia.
    - pose proof (performs_spmv_unbalanced (cgbr_view cgbr1_nonzeros (matrix_of n)) x roff nbr rows brs' (fun j i => row_acc (at_block (nth j I 0)) x i)
        Hr eq_refl (fun bi Hbi => blocking_get _ _ _ _ Hr Hbi) Hsorted ltac:(lia) (fun j bi => blocks_in n x j bi Hx) parts b (conj Hlen Hgood)) as Hp.
      rewrite <- Hy in Hp. eapply eq_rect; [apply (performs_vector _ b y _ _ Hp); intros (i & _ & Hi); by apply temp_name_self in Hi|].
      f_equal. apply imap_ext_lt. intros i yi Hi.
      destruct (block_of_spec roff nbr rows i Hr ltac:(lia)) as [Hbi _].
      destruct (lookup_lt_is_Some_2 parts (block_of roff nbr i)) as [chunks Hch]; [lia|].
      destruct (Hgood _ _ Hch) as [(Hcl & Hst & Hend & Hm) _].
      unfold row_chunks. rewrite (nth_lookup_Some parts _ [] chunks Hch). cbv zeta.
      rewrite (chunk_val_exact one SR); [| |done|lia|lia|lia].
      + rewrite Hst, Hend, cntlt_S. rewrite <- (total_in x i yi) by lia. unfold row_blocks. f_equal. f_equal. lia.
      + intros k' z. rewrite (row_acc_sum one SR _ x i z), (row_acc_sum one SR _ x i s0). f_equal.
        destruct SR as [A0 AC AA]. by rewrite A0.
  Qed.
End matrix.
