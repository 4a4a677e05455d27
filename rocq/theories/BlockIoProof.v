(** BlockIoProof.v: proofs about BlockIo.v *)
From Verif Require Export BlockIo IoProof Properties_Io Properties_Blocked Properties_Bcsr.
From Coq Require Import ZifyNat ZifyBool.

Lemma bind_intro {A C} (m : outcome A) (f : A -> outcome C) a r : m = Ok a -> f a = r -> m ≫= f = r.
Proof. by intros -> <-. Qed.
Lemma assert_ok (c : bool) u : assert_ c = Ok u -> c = true.
Proof. by destruct c. Qed.
Lemma bsplit {A C} (m : outcome A) (f : A -> outcome C) r : m ≫= f = Ok r -> exists a, m = Ok a /\ f a = Ok r.
Proof. apply bind_ok. Qed.
Ltac inv_ok H := lazymatch type of H with
  | assert_ _ ≫= _ = Ok _ => let u := fresh "u" in let Ha := fresh "Ha" in apply bsplit in H as (u & Ha & H); apply assert_ok in Ha
  | _ ≫= _ = Ok _ => let a := fresh "a" in let Ha := fresh "Ha" in apply bsplit in H as (a & Ha & H) end.

Section records.
  Context {T : Type} `{Widths} (RT : repr T) (k umax : nat) (Hk : index_bytes k) (HRT : storable RT).
  Implicit Types (E : list (elem T)) (e : elem T).
  Notation enc_record := (enc_record RT k).

  Definition record_fits e : Prop := blk e < itW /\ row e < itW /\ col e < itW.
  Lemma fread_record_enc e rest : record_fits e -> fread_record RT k (enc_record e ++ rest) = (Some e, rest).
  Proof using Hk HRT.
    intros (H1 & H2 & H3). unfold fread_record, BlockIo.enc_record. rewrite <- !app_assoc.
    rewrite (fread1_enc (index_repr k)) by (apply (faithful_RI k Hk); by intros ? ->).
    rewrite (fread1_enc (index_repr k)) by (apply (faithful_RI k Hk); by intros ? ->).
    rewrite (fread1_enc (index_repr k)) by (apply (faithful_RI k Hk); by intros ? ->).
    rewrite (fread1_enc RT) by (apply (faithful_RT RT HRT)). by destruct e.
  Qed.
  Lemma enc_record_length e : length (enc_record e) = record_size RT k.
  Proof using HRT.
    unfold BlockIo.enc_record, record_size. rewrite !app_length. cbn [index_repr enc sz]. rewrite !le_bytes_length.
    destruct HRT as [_ HR]. rewrite (proj1 (HR (val e))). lia.
  Qed.

  (** the reader's loop does on the encoded elements what the constructor's scan does on
      the elements, as long as "no block yet" is the largest index *)
  Lemma read_sim {S S'} (f : S -> S') new add new' add' E s0 s1 rest : itW = Datatypes.S umax ->
    ksorted blk E -> Forall record_fits E ->
    (forall kk i id s t, new kk i id s = Ok t -> new' kk i id (f s) = Ok (f t)) ->
    (forall kk i e s t, add kk i e s = Ok t -> add' kk i e (f s) = Ok (f t)) ->
    block_scan new add E s0 = Ok s1 ->
    exists kk prev, read_records RT k umax new' add' (length E) (concat (enc_record <$> E) ++ rest) (f s0) = Ok (inl (kk, prev, rest, f s1)).
  Proof using Hk HRT.
    intros Hu Hs Hf Hnew Hadd Hrun. unfold block_scan in Hrun. apply bsplit in Hrun as ([[kk prev] s2] & Hrun & [= ->]).
    exists kk, prev. unfold read_records, for_ret. unfold for_range in Hrun. rewrite Nat.sub_0_r in Hrun.
    rewrite (wrap_small umax) by lia.
    assert (Hgen : forall n i kk0 prev0 s rest', n + i = length E ->
       (prev0 = umax \/ Forall (fun e => prev0 <= blk e) (drop i E)) ->
       for_n n i (fun i '(block_index, prev_b, st) =>
         e ← lget E i;
         '(block_index, prev_b, st) ←
           (if blk e =? prev_b then Ok (block_index, prev_b, st)
            else let k := wadd block_index 1 in st ← new k i (blk e) st; Ok (k, blk e, st));
         st ← add block_index i e st;
         Ok (block_index, prev_b, st)) (kk0, prev0, s) = Ok (kk, prev, s1) ->
       rest' = concat (enc_record <$> drop i E) ++ rest ->
       for_ret_n n i (fun i '(block_index, prev_b, f, st) =>
      match fread_record RT k f with
      | (None, _) => Ok (inr (-4)%Z)
      | (Some e, f) =>
          '(block_index, prev_b, st) ←
            (if blk e =? prev_b then Ok (block_index, prev_b, st)
             else _ ← assert_ ((prev_b <? blk e) || (prev_b =? umax));
                  let k := wadd block_index 1 in st ← new' k i (blk e) st; Ok (k, blk e, st));
          st ← add' block_index i e st;
          Ok (inl (block_index, prev_b, f, st))
      end) (kk0, prev0, rest', f s) = Ok (inl (kk, prev, rest, f s1))).
    { induction n as [|n IH]; intros i kk0 prev0 s rest' Hn Hprev Hr ->; cbn [for_n for_ret_n] in *.
      - injection Hr as <- <- <-. rewrite drop_ge by lia. done.
      - destruct (lookup_lt_is_Some_2 E i) as [e He]; [lia|]. rewrite (lget_some _ _ _ He) in Hr. cbn [mbind outcome_bind] in Hr.
        pose proof (drop_S E e i He) as Hd. rewrite Hd in Hprev |- *. cbn [fmap list_fmap concat]. rewrite <- app_assoc.
        rewrite fread_record_enc by (rewrite Forall_lookup in Hf; by eapply Hf).
        assert (Hs' : Forall (fun c => blk e <= blk c) (drop (Datatypes.S i) E)).
        { assert (Hsd : ksorted blk (drop i E)). { unfold ksorted in *. rewrite <- (take_drop i E) in Hs. eapply StronglySorted_app_inv_r. exact Hs. }
          rewrite Hd in Hsd. unfold ksorted in Hsd. apply StronglySorted_inv in Hsd as [_ Hsd]. exact Hsd. }
        apply bsplit in Hr as ([[kk2 prev2] s2] & Hr & Hr2).
        apply bsplit in Hr as ([[kk1 prev1] st1] & Hr1 & Hr).
        apply bsplit in Hr as (st2 & Ha & Hr). injection Hr as -> -> ->.
        apply Hadd in Ha.
        destruct (Nat.eqb_spec (blk e) prev0) as [Heq|Hneq].
        + injection Hr1 as <- <- <-. cbn [mbind outcome_bind]. rewrite Ha. cbn [mbind outcome_bind].
          apply (IH (Datatypes.S i)); [lia| |exact Hr2|done]. right. by rewrite <- Heq.
        + apply bsplit in Hr1 as (st3 & Hn1 & [= <- <- <-]). apply Hnew in Hn1.
          assert (Hassert : (prev0 <? blk e) || (prev0 =? umax) = true).
          { apply orb_true_iff. destruct Hprev as [->|Hp]; [right; apply Nat.eqb_refl|]. left. apply Forall_inv in Hp. apply Nat.ltb_lt. lia. }
          rewrite Hassert. cbn [assert_ mbind outcome_bind]. rewrite Hn1. cbn [mbind outcome_bind]. rewrite Ha. cbn [mbind outcome_bind].
          apply (IH (Datatypes.S i)); [lia| |exact Hr2|done]. by right. }
    apply (Hgen (length E) 0 umax umax s0 _); [lia|by left| |done].
    replace (itW - 1) with umax in Hrun by lia. exact Hrun.
  Qed.

  (** the header *)
  Lemma read_common rows cols E roff nbr coff nbc nz : rows < itW -> cols < itW -> length E < itW -> nbr < itW -> nbc < itW -> nz < itW ->
    aget roff nbr = Ok rows -> aget coff nbc = Ok cols ->
    read_bin_blocked_common k (Some (write_bin_blocked RT k (Coo rows cols E) nbr nbc nz)) roff nbr coff nbc =
      Ok (rows, cols, length E, nz, concat (enc_record <$> E)).
  Proof using Hk.
    intros H1 H2 H3 H4 H5 H6 H7 H8. unfold read_bin_blocked_common, write_bin_blocked, c_nnz. cbn [c_rows c_cols c_elems].
    do 6 rewrite (fread1_enc (index_repr k)) by (apply (faithful_RI k Hk); by intros ? ->).
    cbn [Nat.add Nat.eqb assert_ mbind outcome_bind use]. rewrite !Nat.eqb_refl. cbn [assert_ mbind outcome_bind].
    rewrite H7. cbn [mbind outcome_bind]. rewrite Nat.eqb_refl. cbn [assert_ mbind outcome_bind].
    rewrite H8. cbn [mbind outcome_bind]. rewrite Nat.eqb_refl. done.
  Qed.
End records.

Definition geo3 (g : geometry) : nat * nat * nat := (g_ro g, g_rs g, g_co g).
Lemma read_geometry_of `{Widths} roff coff nbc id br bc g : block_geometry roff coff nbc id = Ok (br, bc, g) ->
  read_geometry roff coff nbc id = Ok (br, bc, geo3 g).
Proof.
  unfold block_geometry, read_geometry. intros Hb. do 6 inv_ok Hb. injection Hb as <- <- <-.
  rewrite Ha. cbn [mbind outcome_bind]. rewrite Ha0. cbn [mbind outcome_bind]. rewrite Ha1. cbn [mbind outcome_bind]. rewrite Ha2. cbn [mbind outcome_bind]. rewrite Ha3. done.
Qed.
Lemma check_read_of {T} `{Widths} g (e : elem T) u : check_inside g e = Ok u -> check_read (geo3 g) e = Ok tt.
Proof.
  unfold check_inside, check_read, geo3. intros Hb. do 3 inv_ok Hb. unfold wadd in *. rewrite (Nat.add_comm (g_rs g)).
  rewrite Ha. cbn [assert_ mbind outcome_bind]. rewrite Ha0. cbn [assert_ mbind outcome_bind]. rewrite Ha1. done.
Qed.

Section sims.
  Context {T : Type} `{Scalar T} `{Widths}.
  Definition csbr_map (s : csbr_st (T := T)) : rcsbr_st (T := T) := let '(g, ptr, ind, blocks, ci, v) := s in (geo3 <$> g, ptr, ind, blocks, ci, v).
  Definition csbr2_map (s : csbr2_st (T := T)) : rcsbr2_st (T := T) := let '(g, ptr, rps, ci, v) := s in (geo3 <$> g, ptr, rps, ci, v).
  Lemma csbr_new_sim roff coff nbc kk i id s t : csbr_new roff coff nbc kk i id s = Ok t -> rcsbr_new roff coff nbc kk i id (csbr_map s) = Ok (csbr_map t).
  Proof.
    destruct s as [[[[[g ptr] ind] blocks] ci] v]. unfold csbr_new, rcsbr_new. cbn [csbr_map]. intros Hn.
    apply bsplit in Hn as ([[br bc] g'] & Hg & Hn). rewrite (read_geometry_of _ _ _ _ _ _ _ Hg). cbn [mbind outcome_bind geo3].
    do 3 inv_ok Hn. injection Hn as <-. rewrite Ha. cbn [mbind outcome_bind]. rewrite Ha0. cbn [mbind outcome_bind]. rewrite Ha1. done.
  Qed.
  Lemma csbr_add_sim kk i e s t : csbr_add kk i e s = Ok t -> rcsbr_add kk i e (csbr_map s) = Ok (csbr_map t).
  Proof.
    destruct s as [[[[[[g|] ptr] ind] blocks] ci] v]; [|done]. unfold csbr_add, rcsbr_add. cbn [csbr_map fmap option_fmap option_map use]. cbn [mbind outcome_bind].
    intros Hn. apply bsplit in Hn as (u & Hg & Hn). rewrite (check_read_of _ _ _ Hg). cbn [mbind outcome_bind geo3].
    do 5 inv_ok Hn. injection Hn as <-. rewrite Ha. cbn [mbind outcome_bind]. rewrite Ha0. cbn [mbind outcome_bind]. rewrite Ha1.
    cbn [mbind outcome_bind]. rewrite Ha2. cbn [mbind outcome_bind]. rewrite Ha3. done.
  Qed.
  Lemma csbr2_new_sim roff coff nbc kk i id s t : csbr2_new roff coff nbc kk i id s = Ok t -> rcsbr2_new roff coff nbc kk i id (csbr2_map s) = Ok (csbr2_map t).
  Proof.
    destruct s as [[[[g ptr] rps] ci] v]. unfold csbr2_new, rcsbr2_new. cbn [csbr2_map]. intros Hn.
    apply bsplit in Hn as ([[br bc] g'] & Hg & Hn). rewrite (read_geometry_of _ _ _ _ _ _ _ Hg). cbn [mbind outcome_bind geo3].
    do 2 inv_ok Hn. injection Hn as <-. rewrite Ha. cbn [mbind outcome_bind]. rewrite Ha0. done.
  Qed.
  Lemma csbr2_add_sim kk i e s t : csbr2_add kk i e s = Ok t -> rcsbr2_add kk i e (csbr2_map s) = Ok (csbr2_map t).
  Proof.
    destruct s as [[[[[g|] ptr] rps] ci] v]; [|done]. unfold csbr2_add, rcsbr2_add. cbn [csbr2_map fmap option_fmap option_map use]. cbn [mbind outcome_bind].
    intros Hn. apply bsplit in Hn as (u & Hg & Hn). rewrite (check_read_of _ _ _ Hg). cbn [mbind outcome_bind geo3].
    do 5 inv_ok Hn. injection Hn as <-. rewrite Ha. cbn [mbind outcome_bind]. rewrite Ha0. cbn [mbind outcome_bind]. rewrite Ha1.
    cbn [mbind outcome_bind]. rewrite Ha2. cbn [mbind outcome_bind]. rewrite Ha3. done.
  Qed.
End sims.
(** ** Truncated files *)
Section truncated.
  Context {T : Type} `{Widths} (RT : repr T) (k umax : nat) (Hk : index_bytes k) (HRT : storable RT).
  Implicit Types (E : list (elem T)) (e : elem T).
  Notation enc_record := (enc_record RT k).
  Lemma fread1_short {A} (R : repr A) b f : length f < sz R -> fread1 R b f = (0, match f with [] => b | _ => None end, []).
  Proof. intros Hf. unfold fread1. by rewrite decide_False by lia. Qed.
  Lemma fread1_long {A} (R : repr A) b f : sz R <= length f -> fread1 R b f = (1, Some (dec R (take (sz R) f)), drop (sz R) f).
  Proof. intros Hf. unfold fread1. by rewrite decide_True by lia. Qed.
  Lemma fread_record_short f : length f < record_size RT k -> (fread_record RT k f).1 = None.
  Proof using HRT.
    unfold record_size. intros Hf. destruct HRT as [Hp _]. unfold fread_record.
    assert (Hst : forall A (R : repr A) b f n b' f', fread1 R b f = (n, b', f') -> n <= 1 /\ (n = 1 -> length f' + sz R = length f)).
    { intros A R b g n b' g'. unfold fread1. destruct (decide (sz R <= length g)); intros [= <- <- <-]; rewrite ?drop_length; lia. }
    destruct (fread1 (index_repr k) None f) as [[n1 b1] f1] eqn:E1.
    destruct (fread1 (index_repr k) None f1) as [[n2 b2] f2] eqn:E2.
    destruct (fread1 (index_repr k) None f2) as [[n3 b3] f3] eqn:E3.
    destruct (fread1 RT None f3) as [[n4 b4] f4] eqn:E4.
    apply Hst in E1, E2, E3, E4. cbn [sz index_repr] in E1, E2, E3.
    destruct (Nat.eqb_spec (n1 + n2 + n3 + n4) 4); [lia|done].
  Qed.
  Lemma read_truncated {S S'} (f : S -> S') new add new' add' E s0 s1 m : itW = Datatypes.S umax ->
    ksorted blk E -> Forall record_fits E ->
    (forall kk i id s t, new kk i id s = Ok t -> new' kk i id (f s) = Ok (f t)) ->
    (forall kk i e s t, add kk i e s = Ok t -> add' kk i e (f s) = Ok (f t)) ->
    block_scan new add E s0 = Ok s1 -> m < length (concat (enc_record <$> E)) ->
    read_records RT k umax new' add' (length E) (take m (concat (enc_record <$> E))) (f s0) = Ok (inr (-4)%Z).
  Proof using Hk HRT.
    intros Hu Hs Hf Hnew Hadd Hrun Hm. unfold block_scan in Hrun. apply bsplit in Hrun as ([[kk prev] s2] & Hrun & [= ->]).
    unfold read_records, for_ret. unfold for_range in Hrun. rewrite Nat.sub_0_r in Hrun.
    rewrite (wrap_small umax) by lia.
    assert (Hgen : forall n i kk0 prev0 s rest' m, n + i = length E ->
       (prev0 = umax \/ Forall (fun e => prev0 <= blk e) (drop i E)) ->
       for_n n i (fun i '(block_index, prev_b, st) =>
         e ← lget E i;
         '(block_index, prev_b, st) ←
           (if blk e =? prev_b then Ok (block_index, prev_b, st)
            else let k := wadd block_index 1 in st ← new k i (blk e) st; Ok (k, blk e, st));
         st ← add block_index i e st;
         Ok (block_index, prev_b, st)) (kk0, prev0, s) = Ok (kk, prev, s1) ->
       m < length (concat (enc_record <$> drop i E)) ->
       rest' = take m (concat (enc_record <$> drop i E)) ->
       for_ret_n n i (fun i '(block_index, prev_b, f, st) =>
      match fread_record RT k f with
      | (None, _) => Ok (inr (-4)%Z)
      | (Some e, f) =>
          '(block_index, prev_b, st) ←
            (if blk e =? prev_b then Ok (block_index, prev_b, st)
             else _ ← assert_ ((prev_b <? blk e) || (prev_b =? umax));
                  let k := wadd block_index 1 in st ← new' k i (blk e) st; Ok (k, blk e, st));
          st ← add' block_index i e st;
          Ok (inl (block_index, prev_b, f, st))
      end) (kk0, prev0, rest', f s) = Ok (inr (-4)%Z)).
    { induction n as [|n IH]; intros i kk0 prev0 s rest' m' Hn Hprev Hr Hm' ->; cbn [for_n for_ret_n] in *.
      - rewrite drop_ge in Hm' by lia. cbn in Hm'. lia.
      - destruct (lookup_lt_is_Some_2 E i) as [e He]; [lia|]. rewrite (lget_some _ _ _ He) in Hr. cbn [mbind outcome_bind] in Hr.
        pose proof (drop_S E e i He) as Hd. rewrite Hd in Hprev, Hm' |- *. cbn [fmap list_fmap concat] in Hm' |- *.
        destruct (decide (m' < record_size RT k)) as [Hlt|Hge].
        { destruct (fread_record RT k _) as [[e1|] f1] eqn:Hfr; [|done].
          pose proof (fread_record_short (take m' (enc_record e ++ concat (enc_record <$> drop (Datatypes.S i) E)))) as Hsh.
          rewrite Hfr in Hsh. cbn [fst] in Hsh. rewrite take_length in Hsh. specialize (Hsh ltac:(lia)). done. }
        rewrite take_app_ge by (rewrite (enc_record_length RT k HRT); lia).
        rewrite (fread_record_enc RT k Hk HRT) by (rewrite Forall_lookup in Hf; by eapply Hf).
        assert (Hs' : Forall (fun c => blk e <= blk c) (drop (Datatypes.S i) E)).
        { assert (Hsd : ksorted blk (drop i E)). { unfold ksorted in *. rewrite <- (take_drop i E) in Hs. eapply StronglySorted_app_inv_r. exact Hs. }
          rewrite Hd in Hsd. unfold ksorted in Hsd. apply StronglySorted_inv in Hsd as [_ Hsd]. exact Hsd. }
        apply bsplit in Hr as ([[kk2 prev2] s2] & Hr & Hr2).
        apply bsplit in Hr as ([[kk1 prev1] st1] & Hr1 & Hr).
        apply bsplit in Hr as (st2 & Ha & Hr). injection Hr as -> -> ->.
        apply Hadd in Ha. rewrite app_length in Hm'.
        destruct (Nat.eqb_spec (blk e) prev0) as [Heq|Hneq].
        + injection Hr1 as <- <- <-. cbn [mbind outcome_bind]. rewrite Ha. cbn [mbind outcome_bind].
          apply (IH (Datatypes.S i) _ _ _ _ (m' - length (enc_record e))); [lia| |exact Hr2|rewrite (enc_record_length RT k HRT) in *; lia|done]. right. by rewrite <- Heq.
        + apply bsplit in Hr1 as (st3 & Hn1 & [= <- <- <-]). apply Hnew in Hn1.
          assert (Hassert : (prev0 <? blk e) || (prev0 =? umax) = true).
          { apply orb_true_iff. destruct Hprev as [->|Hp]; [right; apply Nat.eqb_refl|]. left. apply Forall_inv in Hp. apply Nat.ltb_lt. lia. }
          rewrite Hassert. cbn [assert_ mbind outcome_bind]. rewrite Hn1. cbn [mbind outcome_bind]. rewrite Ha. cbn [mbind outcome_bind].
          apply (IH (Datatypes.S i) _ _ _ _ (m' - length (enc_record e))); [lia| |exact Hr2|rewrite (enc_record_length RT k HRT) in *; lia|done]. by right. }
    eapply (Hgen (length E) 0 umax umax s0 _ m); [lia|by left| |done|done].
    replace (itW - 1) with umax in Hrun by lia. exact Hrun.
  Qed.
  Lemma header_length rows cols nz nbr nbc nnzb : length (enc (index_repr k) rows ++ enc (index_repr k) cols ++ enc (index_repr k) nz ++
     enc (index_repr k) nbr ++ enc (index_repr k) nbc ++ enc (index_repr k) nnzb) = 6 * k.
  Proof. rewrite !app_length. cbn [enc index_repr]. rewrite !le_bytes_length. lia. Qed.
  Lemma read_common_take rows cols E roff nbr coff nbc nz m : rows < itW -> cols < itW -> length E < itW -> nbr < itW -> nbc < itW -> nz < itW ->
    aget roff nbr = Ok rows -> aget coff nbc = Ok cols ->
    read_bin_blocked_common k (Some (take (6 * k + m) (write_bin_blocked RT k (Coo rows cols E) nbr nbc nz))) roff nbr coff nbc =
      Ok (rows, cols, length E, nz, take m (concat (enc_record <$> E))).
  Proof using Hk.
    intros H1 H2 H3 H4 H5 H6 H7 H8. unfold read_bin_blocked_common, write_bin_blocked, c_nnz. cbn [c_rows c_cols c_elems].
    do 5 rewrite app_assoc. rewrite take_app_ge by (rewrite <- !app_assoc, header_length; lia).
    rewrite <- !app_assoc, header_length, Nat.add_comm, Nat.add_sub.
    do 6 rewrite (fread1_enc (index_repr k)) by (apply (faithful_RI k Hk); by intros ? ->).
    cbn [Nat.add Nat.eqb assert_ mbind outcome_bind use]. rewrite !Nat.eqb_refl. cbn [assert_ mbind outcome_bind].
    rewrite H7. cbn [mbind outcome_bind]. rewrite Nat.eqb_refl. cbn [assert_ mbind outcome_bind].
    rewrite H8. cbn [mbind outcome_bind]. rewrite Nat.eqb_refl. done.
  Qed.
  (** a file shorter than the header stops the program *)
  Lemma read_common_short f roff nbr coff nbc : length f < 6 * k -> read_bin_blocked_common k (Some f) roff nbr coff nbc = Abort.
  Proof using.
    intros Hf. unfold read_bin_blocked_common.
    destruct (fread1 (index_repr k) None f) as [[n1 b1] f1] eqn:E1.
    destruct (fread1 (index_repr k) None f1) as [[n2 b2] f2] eqn:E2.
    destruct (fread1 (index_repr k) None f2) as [[n3 b3] f3] eqn:E3.
    destruct (fread1 (index_repr k) None f3) as [[n4 b4] f4] eqn:E4.
    destruct (fread1 (index_repr k) None f4) as [[n5 b5] f5] eqn:E5.
    destruct (fread1 (index_repr k) None f5) as [[n6 b6] f6] eqn:E6.
    assert (Hst : forall b f n b' f', fread1 (index_repr k) b f = (n, b', f') -> n <= 1 /\ (n = 1 -> length f' + k = length f)).
    { intros b g n b' g'. unfold fread1. cbn [sz index_repr]. destruct (decide (k <= length g)); intros [= <- <- <-]; rewrite ?drop_length; lia. }
    apply Hst in E1, E2, E3, E4, E5, E6.
    destruct (Nat.eqb_spec (n1 + n2 + n3 + n4 + n5 + n6) 6); [lia|done].
  Qed.
End truncated.

Section read_back.
  Context {T : Type} `{Scalar T} `{Widths} (RT : repr T) (k umax : nat) (Hk : index_bytes k) (HRT : storable RT) (Hu : itW = S umax).
  Implicit Types (B : coo T).
  Lemma csbr_read_back workers B roff nbr coff nbc A parts B' :
    Coo_to_Csbr workers B roff nbr coff nbc = Ok (A, parts, B') ->
    c_rows B < itW -> c_cols B < itW -> nbr < itW -> nbc < itW -> sb_nnzblocks A < itW -> c_nnz B' = c_nnz B -> c_nnz B < itW ->
    ksorted blk (c_elems B') -> Forall record_fits (c_elems B') ->
    make_block_file RT k B roff nbr coff nbc = Ok (write_bin_blocked RT k B' nbr nbc (sb_nnzblocks A)) /\
    read_bin_blocked_csbr RT k umax (Some (write_bin_blocked RT k B' nbr nbc (sb_nnzblocks A))) roff nbr coff nbc = Ok (0%Z, Some A) /\
    forall m, 6 * k <= m < length (write_bin_blocked RT k B' nbr nbc (sb_nnzblocks A)) ->
      read_bin_blocked_csbr RT k umax (Some (take m (write_bin_blocked RT k B' nbr nbc (sb_nnzblocks A)))) roff nbr coff nbc = Ok ((-4)%Z, None).
  Proof using Hk HRT Hu.
    intros HA H1 H2 H3 H4 H5 Hlen H6 Hs Hf. unfold Coo_to_Csbr in HA. unfold make_block_file.
    apply bsplit in HA as (E1 & He1 & HA). rewrite He1. cbn [mbind outcome_bind].
    apply bsplit in HA as (E2 & He2 & HA). rewrite He2. cbn [mbind outcome_bind].
    apply bsplit in HA as (nz & He3 & HA). rewrite He3. cbn [mbind outcome_bind].
    apply bsplit in HA as (u & Hb & HA). unfold check_blocking in Hb. do 5 inv_ok Hb.
    apply assert_ok in Hb. apply Nat.eqb_eq in Ha2, Hb.
    apply bsplit in HA as ([[[[[g ptr] ind] blocks] ci] v] & Hscan & HA).
    apply bsplit in HA as (blocks' & Hblocks & HA).
    apply bsplit in HA as (ptr' & Hptr & HA).
    apply bsplit in HA as (total & Htot & HA). inv_ok HA.
    apply bsplit in HA as (ps & Hps & HA). injection HA as <- <- <-.
    cbn [c_elems c_rows c_cols sb_nnzblocks] in *. split; [done|]. unfold c_nnz in Hlen. cbn [c_elems] in Hlen.
    unfold read_bin_blocked_csbr. split.
    2: { intros m [Hm1 Hm2]. replace m with (6 * k + (m - 6 * k)) by lia.
      rewrite (read_common_take RT k Hk) by (try done; unfold c_nnz in *; congruence). cbn [mbind outcome_bind].
      pose proof (read_truncated RT k umax Hk HRT csbr_map _ _ (rcsbr_new roff coff nbc) rcsbr_add _ _ _ (m - 6 * k) Hu Hs Hf
        (csbr_new_sim roff coff nbc) csbr_add_sim Hscan) as Hr.
      cbn [csbr_map fmap option_fmap option_map] in Hr. unfold c_nnz in Hr. rewrite <- Hlen in Hr. rewrite Hr; [done|].
      unfold write_bin_blocked in Hm2. do 5 rewrite app_assoc in Hm2. rewrite app_length, <- !app_assoc, header_length in Hm2. cbn [c_elems] in Hm2. lia. }
    rewrite (read_common RT k Hk) by (try done; unfold c_nnz in *; congruence). cbn [mbind outcome_bind].
    destruct (read_sim RT k umax Hk HRT csbr_map _ _ (rcsbr_new roff coff nbc) rcsbr_add _ _ _ [] Hu Hs Hf
      (csbr_new_sim roff coff nbc) csbr_add_sim Hscan) as (kk & prev & Hr).
    rewrite app_nil_r in Hr. cbn [csbr_map fmap option_fmap option_map] in Hr. unfold c_nnz in Hr. rewrite <- Hlen in Hr.
    rewrite Hr. cbn [mbind outcome_bind].
    rewrite Hblocks. cbn [mbind outcome_bind]. rewrite Hptr. cbn [mbind outcome_bind]. rewrite Htot. cbn [mbind outcome_bind].
    rewrite Ha4. cbn [assert_ mbind outcome_bind]. unfold c_nnz. by rewrite Hlen.
  Qed.
  Lemma csbr2_read_back B roff nbr coff nbc A B' :
    Coo_to_Csbr2 B roff nbr coff nbc = Ok (A, B') ->
    c_rows B < itW -> c_cols B < itW -> nbr < itW -> nbc < itW -> s2_nnzblocks A < itW -> c_nnz B' = c_nnz B -> c_nnz B < itW ->
    ksorted blk (c_elems B') -> Forall record_fits (c_elems B') ->
    make_block_file RT k B roff nbr coff nbc = Ok (write_bin_blocked RT k B' nbr nbc (s2_nnzblocks A)) /\
    read_bin_blocked_csbr2 RT k umax (Some (write_bin_blocked RT k B' nbr nbc (s2_nnzblocks A))) roff nbr coff nbc = Ok (0%Z, Some A) /\
    forall m, 6 * k <= m < length (write_bin_blocked RT k B' nbr nbc (s2_nnzblocks A)) ->
      read_bin_blocked_csbr2 RT k umax (Some (take m (write_bin_blocked RT k B' nbr nbc (s2_nnzblocks A)))) roff nbr coff nbc = Ok ((-4)%Z, None).
  Proof using Hk HRT Hu.
    intros HA H1 H2 H3 H4 H5 Hlen H6 Hs Hf. unfold Coo_to_Csbr2 in HA. unfold make_block_file.
    apply bsplit in HA as (E1 & He1 & HA). rewrite He1. cbn [mbind outcome_bind].
    apply bsplit in HA as (E2 & He2 & HA). rewrite He2. cbn [mbind outcome_bind].
    apply bsplit in HA as (nz & He3 & HA). rewrite He3. cbn [mbind outcome_bind].
    apply bsplit in HA as (u & Hb & HA). unfold check_blocking in Hb. do 5 inv_ok Hb.
    apply assert_ok in Hb. apply Nat.eqb_eq in Ha2, Hb.
    apply bsplit in HA as ([[[[g ptr] rps] ci] v] & Hscan & HA).
    apply bsplit in HA as (ptr' & Hptr & HA).
    apply bsplit in HA as ([rps' nc] & Hrps & HA).
    apply bsplit in HA as (total & Htot & HA). inv_ok HA. injection HA as <- <-.
    cbn [c_elems c_rows c_cols s2_nnzblocks] in *. split; [done|]. unfold c_nnz in Hlen. cbn [c_elems] in Hlen.
    unfold read_bin_blocked_csbr2. split.
    2: { intros m [Hm1 Hm2]. replace m with (6 * k + (m - 6 * k)) by lia.
      rewrite (read_common_take RT k Hk) by (try done; unfold c_nnz in *; congruence). cbn [mbind outcome_bind].
      pose proof (read_truncated RT k umax Hk HRT csbr2_map _ _ (rcsbr2_new roff coff nbc) rcsbr2_add _ _ _ (m - 6 * k) Hu Hs Hf
        (csbr2_new_sim roff coff nbc) csbr2_add_sim Hscan) as Hr.
      cbn [csbr2_map fmap option_fmap option_map] in Hr. unfold c_nnz in Hr. rewrite <- Hlen in Hr. rewrite Hr; [done|].
      unfold write_bin_blocked in Hm2. do 5 rewrite app_assoc in Hm2. rewrite app_length, <- !app_assoc, header_length in Hm2. cbn [c_elems] in Hm2. lia. }
    rewrite (read_common RT k Hk) by (try done; unfold c_nnz in *; congruence). cbn [mbind outcome_bind].
    destruct (read_sim RT k umax Hk HRT csbr2_map _ _ (rcsbr2_new roff coff nbc) rcsbr2_add _ _ _ [] Hu Hs Hf
      (csbr2_new_sim roff coff nbc) csbr2_add_sim Hscan) as (kk & prev & Hr).
    rewrite app_nil_r in Hr. cbn [csbr2_map fmap option_fmap option_map] in Hr. unfold c_nnz in Hr. rewrite <- Hlen in Hr.
    rewrite Hr. cbn [mbind outcome_bind].
    rewrite Hptr. cbn [mbind outcome_bind]. rewrite Htot. cbn [mbind outcome_bind].
    rewrite Ha4. cbn [assert_ mbind outcome_bind]. rewrite Hrps. cbn [mbind outcome_bind]. unfold c_nnz. by rewrite Hlen.
  Qed.
End read_back.
