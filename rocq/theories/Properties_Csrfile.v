(** Properties_Csrfile.v: C103, what [read_bin_CSR] (include/io/input.h) makes of a file whose
    row numbers are not rows of the matrix, or whose row section is cut short.  The reader looks
    neither at the row numbers nor at the number of items read. *)
From Verif Require Import RangeProof IoProof Properties_Io.
From Coq Require Import ZifyNat ZifyBool ZifyN.

Section loop.
  Context `{Widths} (k : nat) (Hk : index_bytes k).
  Implicit Types (l L : list nat) (rest : bytes).
  Notation RI := (index_repr k).
  (** the body of the reader's loop over the row section *)
  Definition row_item (i : nat) (st : option nat * bytes * arr nat) : outcome (option nat * bytes * arr nat) :=
    let '(current_row, f, ptr) := st in
    let '(_, current_row, f) := fread1 RI current_row f in
    match current_row with
    | None => Undef Uninit
    | Some r => ptr ← incr ptr (wadd r 1); Ok (current_row, f, ptr)
    end.
  (** L is what the loop takes the rows to be when the file holds the rows l and then rest:
      the numbers in the file, and after the end of the file the last of them again and again *)
  Definition seen l rest L : Prop := forall i, i < length L ->
    (i < length l /\ l !! i = L !! i) \/ (length l <= i /\ rest = [] /\ 0 < i /\ L !! i = L !! (i - 1)).
  Definition row_inv l rest L (rows i : nat) (st : option nat * bytes * arr nat) : Prop :=
    let '(cr, f, ptr) := st in
    f = fwrite RI (drop i l) ++ rest /\ ptr = full (wcounters (take i L) rows) /\ (0 < i -> cr = L !! (i - 1)).
  Definition wild_index (rows r : nat) : Prop := r < rows \/ r = itW - 1.

  Lemma row_inv_start l rest L rows : row_inv l rest L rows 0 (None, fwrite RI l ++ rest, new_arr0 0 (S rows)).
  Proof using. unfold row_inv. rewrite take_0, drop_0, wcounters_nil. split; [done|]. split; [done|]. lia. Qed.
  (** one item: the row read, and the rest of the file *)
  Lemma row_read l rest L i cr : seen l rest L -> Forall (fun r => r < itW) l -> i < length L -> (0 < i -> cr = L !! (i - 1)) ->
    exists n, fread1 RI cr (fwrite RI (drop i l) ++ rest) = (n, L !! i, fwrite RI (drop (S i) l) ++ rest).
  Proof using Hk.
    intros HL Hl Hi Hcr. destruct (HL i Hi) as [[Hil Heq]|(Hil & -> & Hi0 & Heq)].
    - destruct (lookup_lt_is_Some_2 l i Hil) as [r Hr]. exists 1.
      rewrite (drop_S l r i Hr), fwrite_cons, <- app_assoc, <- Heq, Hr. apply fread1_enc. apply (faithful_RI k Hk). intros ? ->.
      rewrite Forall_lookup in Hl. by apply (Hl i).
    - rewrite !drop_ge by lia. exists 0. unfold fwrite at 1. cbn [fmap list_fmap concat app]. unfold fread1. destruct Hk as [Hk0 _].
      rewrite decide_False by (cbn; lia). by rewrite (Hcr Hi0), Heq.
  Qed.
  Lemma row_step l rest L rows i st : seen l rest L -> Forall (fun r => r < itW) l -> rows + 1 < itW -> length L < itW ->
    i < length L -> (forall r, L !! i = Some r -> wild_index rows r) -> row_inv l rest L rows i st ->
    wp (row_item i st) (row_inv l rest L rows (S i)).
  Proof using Hk.
    intros HL Hl Hr Hn Hi Hwild. destruct st as [[cr f] ptr]. intros (-> & -> & Hcr). unfold row_item.
    destruct (row_read l rest L i cr HL Hl Hi Hcr) as [n Hf]. rewrite Hf. destruct (lookup_lt_is_Some_2 L i Hi) as [r HLr]. rewrite HLr.
    rewrite wincr_step by (rewrite ?take_length; first [lia|by apply Hwild]). cbn [mbind outcome_bind wp]. unfold row_inv.
    split; [done|]. split; [by rewrite (take_S_r _ _ _ HLr)|]. intros _. by replace (S i - 1) with i by lia.
  Qed.
  Lemma rows_seen l rest L rows : seen l rest L -> Forall (fun r => r < itW) l -> Forall (wild_index rows) L -> rows + 1 < itW -> length L < itW ->
    exists cr, for_range 0 (length L) row_item (None, fwrite RI l ++ rest, new_arr0 0 (S rows)) =
      Ok (cr, fwrite RI (drop (length L) l) ++ rest, full (wcounters L rows)).
  Proof using Hk.
    intros HL Hl HW Hr Hn.
    assert (Hwp : wp (for_range 0 (length L) row_item (None, fwrite RI l ++ rest, new_arr0 0 (S rows))) (row_inv l rest L rows (length L))).
    { apply wp_for_range; [lia|apply row_inv_start|]. intros i st Hi. apply row_step; [done|done|done|done|lia|].
      intros r Hir. rewrite Forall_lookup in HW. by apply (HW i). }
    apply wp_exists in Hwp as ([[cr f] ptr] & -> & -> & -> & _). exists cr. by rewrite firstn_all.
  Qed.
  Lemma rows_outside l rest rows : Forall (fun r => r < itW) l -> Exists (fun r => rows <= r /\ r < itW - 1) l -> rows + 1 < itW -> length l < itW ->
    for_range 0 (length l) row_item (None, fwrite RI l ++ rest, new_arr0 0 (S rows)) = Undef OutOfBounds.
  Proof using Hk.
    intros Hl Hx Hr Hn.
    assert (Hfirst : exists i r, l !! i = Some r /\ rows <= r /\ r < itW - 1 /\ Forall (wild_index rows) (take i l)).
    { clear Hn. induction l as [|r l IH]; [by apply Exists_nil in Hx|]. apply Forall_cons in Hl as [Hl1 Hl2].
      destruct (decide (rows <= r /\ r < itW - 1)) as [[H1 H2]|Hno]; [exists 0, r; cbn; done|].
      apply Exists_cons in Hx as [Hx|Hx]; [done|]. destruct (IH Hl2 Hx) as (i & r' & H1 & H2 & H3 & H4).
      exists (S i), r'. split; [done|]. split; [done|]. split; [done|]. cbn [take]. constructor; [|done]. unfold wild_index. lia. }
    destruct Hfirst as (i & r & Hir & H1 & H2 & Hf). pose proof (lookup_lt_Some _ _ _ Hir) as Hi.
    assert (Hseen : seen l rest l) by (intros j Hj; by left).
    apply (for_range_undef (row_inv l rest l rows) 0 i); [lia|apply row_inv_start| |].
    - intros j st Hj. apply row_step; [done|done|done|done|lia|]. intros r' Hr'. rewrite Forall_lookup in Hf.
      apply (Hf j). rewrite lookup_take by lia. done.
    - intros [[cr f] ptr] (-> & -> & Hcr). unfold row_item. destruct (row_read l rest l i cr Hseen Hl Hi Hcr) as [n ->]. rewrite Hir.
      assert (wadd r 1 = r + 1) as -> by (unfold wadd; rewrite wrap_small; lia).
      unfold incr. rewrite aget_full, lget_none; [done|]. unfold wcounters. rewrite fmap_length, seq_length. lia.
  Qed.
  (** the file ends inside a row number, or before the first one *)
  Lemma rows_broken l rest rows n : Forall (fun r => r < rows) l -> rows + 1 < itW -> n < itW -> length l < n ->
    length rest < k -> rest <> [] \/ l = [] ->
    for_range 0 n row_item (None, fwrite RI l ++ rest, new_arr0 0 (S rows)) = Undef Uninit.
  Proof using Hk.
    intros Hl Hr Hn Hln Hrest Hcase.
    assert (Hseen : seen l rest l) by (intros j Hj; by left).
    assert (Hl' : Forall (fun r => r < itW) l) by (eapply Forall_impl; [exact Hl|]; cbv beta; lia).
    apply (for_range_undef (fun j st => row_inv l rest l rows j st /\ (j = 0 -> st.1.1 = None)) 0 (length l)); [lia| | |].
    - split; [apply row_inv_start|done].
    - intros j st Hj [HI _]. eapply wp_mono; [apply (row_step l rest l rows); [done|done|done|lia|lia| |done]|].
      + intros r' Hr'. left. rewrite Forall_lookup in Hl. by apply (Hl j).
      + intros st' HI'. split; [done|lia].
    - intros [[cr f] ptr] [(-> & -> & Hcr) Hz]. unfold row_item. rewrite drop_ge by lia. unfold fwrite. cbn [fmap list_fmap concat app].
      unfold fread1. change (sz RI) with k. rewrite decide_False by lia. destruct rest; [|done].
      destruct Hcase as [Hcase| ->]; [done|]. cbn [fst] in Hz. by rewrite Hz.
  Qed.
  Lemma cnt_wild_index L rows : rows + 1 < itW -> Forall (wild_index rows) L -> cnteq L (itW - 1) + cntlt L rows = length L.
  Proof using.
    clear k Hk. intros Hr. unfold cnteq, cntlt. induction 1 as [|r L He _ IH]; [done|]. cbn [List.filter length]. unfold wild_index in He.
    destruct (Nat.eqb_spec r (itW - 1)), (Nat.ltb_spec r rows); cbn [length]; lia.
  Qed.
End loop.

Section C103.
  Context {T : Type} `{Scalar T} `{Widths} (RT : repr T) (k : nat) (Hk : index_bytes k) (HRT : storable RT).
  Implicit Types (B : coo T) (E : list (elem T)) (x y : list T) (b : buf).
  Notation RI := (index_repr k).

  (** the reader after the header *)
  Lemma read_header B (f : bytes) : fits B -> c_rows B + 1 < itW ->
    read_bin_CSR RT k (Some (enc RI (c_rows B) ++ enc RI (c_cols B) ++ enc RI (c_nnz B) ++ f)) =
    ('(current_row, f, ptr) ← for_range 0 (c_nnz B) (row_item k) (None, f, new_arr0 0 (S (c_rows B)));
     let '(ind, f) := fread_items RI (c_nnz B) f in
     let '(v, f) := fread_items RT (c_nnz B) f in
     ptr ← prefix_sum ptr (c_rows B);
     total ← aget ptr (c_rows B);
     _ ← assert_ (total =? c_nnz B);
     Ok (0%Z, Some (Csr (c_rows B) (c_cols B) ptr (full ind ++ new_arr (c_nnz B - length ind)) (full v ++ new_arr (c_nnz B - length v))))).
  Proof using Hk HRT.
    intros (Hr & Hc & Hn & HF) Hr1. unfold read_bin_CSR.
    rewrite fread1_enc by (apply (faithful_RI k Hk); by intros ? ->).
    rewrite fread1_enc by (apply (faithful_RI k Hk); by intros ? ->).
    rewrite fread1_enc by (apply (faithful_RI k Hk); by intros ? ->).
    assert (wadd (c_rows B) 1 = S (c_rows B)) as -> by (unfold wadd; rewrite wrap_small; lia). done.
  Qed.
  (** ... when the loop takes the rows to be L *)
  Lemma read_seen B l rest L : fits B -> c_rows B + 1 < itW -> seen l rest L -> length L = c_nnz B -> length l <= c_nnz B ->
    Forall (fun r => r < itW) l -> Forall (wild_index (c_rows B)) L ->
    read_bin_CSR RT k (Some (enc RI (c_rows B) ++ enc RI (c_cols B) ++ enc RI (c_nnz B) ++ fwrite RI l ++ rest)) =
    (let '(ind, f) := fread_items RI (c_nnz B) rest in
     let '(v, f) := fread_items RT (c_nnz B) f in
     Ok (0%Z, Some (Csr (c_rows B) (c_cols B) (full (wptrs L (c_rows B))) (full ind ++ new_arr (c_nnz B - length ind)) (full v ++ new_arr (c_nnz B - length v))))).
  Proof using Hk HRT.
    intros HB Hr1 Hs HL Hll Hl HW. rewrite read_header by done. pose proof HB as (Hr & Hc & Hn & HF).
    destruct (rows_seen k Hk l rest L (c_rows B) Hs Hl HW Hr1) as [cr Hcr]; [lia|]. rewrite HL in Hcr. rewrite Hcr. cbn [mbind outcome_bind].
    rewrite drop_ge by lia. unfold fwrite. cbn [fmap list_fmap concat app].
    destruct (fread_items RI (c_nnz B) rest) as [ind f]. destruct (fread_items RT (c_nnz B) f) as [v f'].
    rewrite wprefix_sum by lia. cbn [mbind outcome_bind].
    rewrite aget_full, (lget_some _ _ (c_nnz B)).
    2:{ unfold wptrs. rewrite fmap_seq_lookup by lia. rewrite cnt_wild_index by done. by rewrite HL. }
    cbn [mbind outcome_bind]. rewrite Nat.eqb_refl. done.
  Qed.

  (** a row number that is neither a row nor the largest value of the index type: the reader
      writes outside its array of row pointers *)
  Theorem C103_rows_outside B : fits B -> c_rows B + 1 < itW ->
    Exists (fun e => c_rows B <= row e /\ row e < itW - 1) (c_elems B) ->
    read_bin_CSR RT k (Some (write_bin_COO RT k B)) = Undef OutOfBounds.
  Proof using Hk HRT.
    intros HB Hr1 Hx. unfold write_bin_COO. rewrite read_header by done. pose proof HB as (Hr & Hc & Hn & HF).
    pose proof (rows_outside k Hk (row <$> c_elems B) (fwrite RI (col <$> c_elems B) ++ fwrite RT (val <$> c_elems B)) (c_rows B)) as Hu.
    rewrite fmap_length in Hu. fold (c_nnz B) in Hu. rewrite Hu; [done| | |done|done].
    - apply Forall_fmap. eapply Forall_impl; [exact HF|]. by intros e [He _].
    - apply Exists_exists in Hx as (e & He & Ho). apply Exists_exists. exists (row e). split; [by apply elem_of_list_fmap_1|done].
  Qed.

  (** the elements row i gets from a file some of whose row numbers are the largest value: as
      many as the file has for it, but as many positions further on as there are such numbers *)
  Definition misread_file E i : list (elem T) :=
    take (length (bfilter (in_row i) E)) (drop (length (bfilter (fun e => row e =? itW - 1) E) + length (bfilter (fun e => row e <? i) E)) E).
  Lemma misread_file_shifted E i : misread_file E i = shifted_row E i.
  Proof using. clear. unfold misread_file, shifted_row, slice. by rewrite !(cnteq_fmap row), (cntlt_fmap row). Qed.
  Theorem C103_last_index B x y b : fits B -> c_rows B + 1 < itW ->
    Forall (fun e => row e < c_rows B \/ row e = itW - 1) (c_elems B) -> Forall (fun e => col e < length x) (c_elems B) -> length y = c_rows B ->
    exists A, read_bin_CSR RT k (Some (write_bin_COO RT k B)) = Ok (0%Z, Some A) /\ csr_nonzeros A = Ok (c_nnz B) /\
      let y' := imap (fun i yi => fold_left (accum x) (misread_file (c_elems B) i) yi) y in
      all_schedules (csr_spmv A x b) (heap_of b y) tt (heap_of b y') /\ all_schedules (csr_spmv_serial A x b) (heap_of b y) tt (heap_of b y') /\
      all_schedules (csr2_spmv A x b) (heap_of b y) tt (heap_of b y') /\ all_schedules (csr2_spmv_serial A x b) (heap_of b y) tt (heap_of b y').
  Proof using Hk HRT.
    intros HB Hr1 HE Hx Hy. pose proof HB as (Hr & Hc & Hn & HF). set (E := c_elems B) in *.
    assert (HW : Forall (wild_index (c_rows B)) (row <$> E)) by (by apply Forall_fmap).
    eexists. split.
    { unfold write_bin_COO. rewrite (read_seen B (row <$> E) _ (row <$> E)); [|done|done| | | | |done].
      - pose proof (fread_items_fwrite RI (col <$> E) (fwrite RT (val <$> E)) (fits_cols k Hk B HB)) as H1.
        rewrite fmap_length in H1. change (length E) with (c_nnz B) in H1. fold E. rewrite H1.
        pose proof (fread_items_fwrite RT (val <$> E) [] (faithful_RT RT HRT _)) as H2. rewrite app_nil_r in H2.
        rewrite fmap_length in H2. change (length E) with (c_nnz B) in H2. rewrite H2. rewrite !fmap_length. change (length E) with (c_nnz B).
        replace (c_nnz B - c_nnz B) with 0 by lia. unfold new_arr. cbn [replicate]. rewrite !app_nil_r. reflexivity.
      - intros i Hi. by left.
      - by rewrite fmap_length.
      - by rewrite fmap_length.
      - apply Forall_fmap. eapply Forall_impl; [exact HF|]. by intros e [He _]. }
    split. { unfold csr_nonzeros. cbn [csr_ptr csr_rows]. rewrite aget_full. apply lget_some. unfold wptrs. rewrite fmap_seq_lookup by lia.
      rewrite cnt_wild_index by done. by rewrite fmap_length. }
    pose proof (csr_build_wild_rep (fun c => c) E (c_rows B) Hr1 ltac:(by apply Forall_true)) as Hrep.
    assert (Hcols : cols_ok (c_rows B) (length x) (shifted_row E)).
    { intros i _. unfold shifted_row, slice. by apply Forall_take, Forall_drop. }
    cbv zeta.
    assert (Hfin : forall p : prog T unit, performs p b 0 (c_rows B) (fun _ => False) (fun k (z : T) => fold_left (accum (drop 0 x)) (shifted_row E k) z) ->
              all_schedules p (heap_of b y) tt (heap_of b (imap (fun i yi => fold_left (accum x) (misread_file E i) yi) y))).
    { intros p Hp. rewrite <- Hy in Hp. pose proof (performs_vector _ b y _ _ Hp ltac:(by intros [])) as Hall.
      rewrite drop_0 in Hall. erewrite imap_ext_lt in Hall; [exact Hall|]. intros i a _. cbv beta. by rewrite misread_file_shifted. }
    assert (Hz : exists z, aget (full (wptrs (row <$> E) (c_rows B))) 0 = Ok z).
    { eexists. rewrite aget_full. apply lget_some. unfold wptrs. by rewrite fmap_seq_lookup by lia. }
    unfold csr_spmv, csr_spmv_serial, csr2_spmv, csr2_spmv_serial. cbn [csr_ptr csr_ind csr_vals csr_rows].
    split; [|split; [|split]]; apply Hfin.
    - by eapply performs_spmv_csr.
    - by eapply performs_spmv_csr_serial.
    - by eapply performs_spmv_csr2.
    - by eapply performs_spmv_csr2_serial.
  Qed.

  (** the bytes of a file cut j items into the row section, and p bytes further *)
  Lemma fwrite_cut (l : list nat) j p : j <= length l -> take (j * k + p) (fwrite RI l) = fwrite RI (take j l) ++ take p (fwrite RI (drop j l)).
  Proof using.
    clear. revert l. induction j as [|j IH]; intros l Hj; [by rewrite take_0, drop_0|]. destruct l as [|r l]; [cbn in Hj; lia|].
    cbn [take drop]. rewrite !fwrite_cons. assert (Hlen : length (enc RI r) = k) by apply le_bytes_length.
    rewrite take_app_ge by (rewrite Hlen; lia). rewrite Hlen. replace (S j * k + p - k) with (j * k + p) by lia.
    rewrite IH by (cbn in Hj; lia). by rewrite <- app_assoc.
  Qed.
  Lemma file_cut B j p : j <= c_nnz B -> p <= k -> (j = c_nnz B -> p = 0) ->
    take (3 * k + j * k + p) (write_bin_COO RT k B) =
    enc RI (c_rows B) ++ enc RI (c_cols B) ++ enc RI (c_nnz B) ++ fwrite RI (take j (row <$> c_elems B)) ++ take p (fwrite RI (drop j (row <$> c_elems B))).
  Proof using.
    intros Hj Hp Hjp. unfold write_bin_COO.
    assert (Hlen : forall n, length (enc RI n) = k) by (intros; apply le_bytes_length).
    rewrite take_app_ge by (rewrite Hlen; lia). rewrite take_app_ge by (rewrite !Hlen; lia). rewrite take_app_ge by (rewrite !Hlen; lia).
    rewrite !Hlen. replace (3 * k + j * k + p - k - k - k) with (j * k + p) by lia. do 3 f_equal.
    assert (Hrl : length (fwrite RI (row <$> c_elems B)) = c_nnz B * k) by (rewrite fwrite_length, fmap_length; [done|intros; apply le_bytes_length]).
    rewrite take_app_le by (rewrite Hrl; destruct (decide (j = c_nnz B)) as [->|]; [rewrite Hjp by done; lia|nia]).
    apply fwrite_cut. by rewrite fmap_length.
  Qed.
  (** a file that ends after j row numbers, the last of them z, is read with code 0 as a matrix
      with all the announced elements: every missing one is put into row z.  No column and no
      value of it is initialised *)
  Theorem C103_rows_cut B j z : fits B -> c_rows B + 1 < itW -> in_range (c_rows B) (c_cols B) (c_elems B) ->
    1 <= j <= c_nnz B -> row <$> c_elems B !! (j - 1) = Some z ->
    exists A, read_bin_CSR RT k (Some (take (3 * k + j * k) (write_bin_COO RT k B))) = Ok (0%Z, Some A) /\
      csr_rows A = c_rows B /\ csr_cols A = c_cols B /\ csr_nonzeros A = Ok (c_nnz B) /\
      (forall i, i < c_rows B -> exists s t, aget (csr_ptr A) i = Ok s /\ aget (csr_ptr A) (i + 1) = Ok t /\
         t = s + length (bfilter (in_row i) (take j (c_elems B))) + (if i =? z then c_nnz B - j else 0)) /\
      csr_ind A = replicate (c_nnz B) None /\ csr_vals A = replicate (c_nnz B) None.
  Proof using Hk HRT.
    intros HB Hr1 HE Hj Hz. pose proof HB as (Hr & Hc & Hn & HF). pose proof (file_cut B j 0 ltac:(lia) ltac:(lia) ltac:(done)) as Hcut.
    rewrite Nat.add_0_r, take_0 in Hcut. rewrite Hcut. clear Hcut.
    set (l := take j (row <$> c_elems B)). set (L := l ++ replicate (c_nnz B - j) z).
    assert (Hll : length l = j) by (unfold l; rewrite take_length, fmap_length; fold (c_nnz B); lia).
    assert (HLl : length L = c_nnz B) by (unfold L; rewrite app_length, replicate_length; lia).
    assert (Hrows : Forall (fun r => r < c_rows B) (row <$> c_elems B)).
    { apply Forall_fmap. eapply Forall_impl; [exact HE|]. by intros e [He _]. }
    assert (Hz' : l !! (j - 1) = Some z).
    { unfold l. rewrite lookup_take by lia. rewrite list_lookup_fmap. exact Hz. }
    assert (Hzr : z < c_rows B).
    { assert (Hin : z ∈ row <$> c_elems B).
      { apply elem_of_list_lookup. exists (j - 1). rewrite list_lookup_fmap. exact Hz. }
      rewrite Forall_forall in Hrows. by apply Hrows. }
    assert (Hlr : Forall (fun r => r < c_rows B) L).
    { unfold L. apply Forall_app. split; [by apply Forall_take|]. apply Forall_replicate. exact Hzr. }
    rewrite (read_seen B l [] L); [|done|done| |done|lia| |].
    2:{ intros i Hi. destruct (decide (i < length l)) as [Hil|Hil]; [left; split; [done|]; unfold L; by rewrite lookup_app_l|right].
      split; [lia|]. split; [done|]. split; [lia|]. unfold L. rewrite lookup_app_r by lia. rewrite lookup_replicate_2 by lia.
      destruct (decide (i = length l)) as [->|Hne]; [rewrite lookup_app_l by lia; rewrite Hll; by rewrite Hz'|].
      rewrite lookup_app_r by lia. rewrite lookup_replicate_2 by lia. done. }
    2:{ apply Forall_take. eapply Forall_impl; [exact Hrows|]. cbv beta. lia. }
    2:{ eapply Forall_impl; [exact Hlr|]. cbv beta. unfold wild_index. lia. }
    pose proof Hk as [Hk0 _]. destruct HRT as [HR0 _].
    assert (Hfi : forall A0 (R : repr A0), 0 < sz R -> forall n, fread_items R n [] = ([], [])).
    { intros A0 R HR [|n]; [done|]. cbn [fread_items length]. by rewrite decide_False by lia. }
    rewrite (Hfi _ RI Hk0). rewrite (Hfi _ RT HR0). cbn [length]. rewrite Nat.sub_0_r.
    eexists. split; [reflexivity|]. cbn [csr_rows csr_cols csr_ptr csr_ind csr_vals]. split; [done|]. split; [done|].
    assert (Hg : forall i, i <= c_rows B -> aget (full (wptrs L (c_rows B))) i = Ok (cnteq L (itW - 1) + cntlt L i)).
    { intros i Hi. rewrite aget_full. apply lget_some. unfold wptrs. by rewrite fmap_seq_lookup by lia. }
    split. { unfold csr_nonzeros. cbn [csr_ptr csr_rows]. rewrite Hg by lia. rewrite cnt_wild_index; [by rewrite HLl|done|].
      eapply Forall_impl; [exact Hlr|]. cbv beta. unfold wild_index. lia. }
    split; [|done]. intros i Hi. exists (cnteq L (itW - 1) + cntlt L i), (cnteq L (itW - 1) + cntlt L (S i)).
    split; [apply Hg; lia|]. replace (i + 1) with (S i) by lia. split; [apply Hg; lia|]. rewrite cntlt_S.
    assert (Hcl : cnteq L i = length (bfilter (in_row i) (take j (c_elems B))) + (if i =? z then c_nnz B - j else 0)); [|lia].
    unfold L. rewrite cnteq_app. f_equal.
    - unfold l. rewrite <- fmap_take. rewrite (cnteq_fmap row). done.
    - generalize (c_nnz B - j). intros m. induction m as [|m IH]; [by destruct (i =? z)|]. unfold cnteq in *. cbn [replicate List.filter].
      rewrite (Nat.eqb_sym z i). destruct (i =? z); cbn [length]; lia.
  Qed.
  (** a file that ends before the first row number, or inside one: the reader uses an
      indeterminate row number *)
  Theorem C103_rows_broken B j p : fits B -> c_rows B + 1 < itW -> in_range (c_rows B) (c_cols B) (c_elems B) ->
    j < c_nnz B -> p < k -> (0 < p \/ j = 0) ->
    read_bin_CSR RT k (Some (take (3 * k + j * k + p) (write_bin_COO RT k B))) = Undef Uninit.
  Proof using Hk HRT.
    intros HB Hr1 HE Hj Hp Hcase. pose proof HB as (Hr & Hc & Hn & HF). rewrite file_cut by lia. rewrite read_header by done.
    assert (Hrows : Forall (fun r => r < c_rows B) (row <$> c_elems B)).
    { apply Forall_fmap. eapply Forall_impl; [exact HE|]. by intros e [He _]. }
    assert (Hrl : length (fwrite RI (drop j (row <$> c_elems B))) = (c_nnz B - j) * k).
    { rewrite fwrite_length, drop_length, fmap_length; [done|intros; apply le_bytes_length]. }
    assert (Htl : length (take p (fwrite RI (drop j (row <$> c_elems B)))) = p) by (rewrite take_length, Hrl; nia).
    rewrite rows_broken; [done|done|by apply Forall_take|done|done| |by rewrite Htl|].
    - rewrite take_length, fmap_length. fold (c_nnz B). lia.
    - destruct Hcase as [Hp0| ->]; [left|right; apply take_0]. intros He. rewrite He in Htl. cbn in Htl. lia.
  Qed.
End C103.

(** ** Examples *)
Definition ex_reprZ : repr Z := {| sz := 2; enc := fun z => [Z.to_nat z; Z.to_nat (- z)]; dec := fun l => (Z.of_nat (nth 0 l 0%nat) - Z.of_nat (nth 1 l 0%nat))%Z |}.
Lemma ex_storableZ : storable ex_reprZ.
Proof. split; [cbn; lia|]. intros v. split; [done|]. cbn [dec enc ex_reprZ nth]. lia. Qed.
Lemma ex_bytes1 : @index_bytes ex_W16 1.
Proof. split; [lia|done]. Qed.
Definition ex_row5 : coo Z := Coo 2 2 [Elem 0 1 4%Z 0; Elem 5 0 3%Z 0].
Definition ex_row255 : coo Z := Coo 2 2 [Elem 0 0 1%Z 0; Elem 1 1 1%Z 0; Elem 255 0 50%Z 0].
Definition ex_good : coo Z := Coo 2 2 [Elem 0 0 1%Z 0; Elem 0 1 4%Z 0; Elem 1 1 3%Z 0; Elem 1 0 2%Z 0].
Example C103_ex_outside : read_bin_CSR (H := ex_W16) ex_reprZ 1 (Some (write_bin_COO ex_reprZ 1 ex_row5)) = Undef OutOfBounds.
Proof.
  apply (C103_rows_outside (H0 := ex_W16) ex_reprZ 1 ex_bytes1 ex_storableZ).
  - unfold fits, c_nnz, ex_row5. cbn. split; [lia|]. split; [lia|]. split; [lia|]. repeat (constructor; [cbn; lia|]). constructor.
  - cbn. lia.
  - unfold ex_row5. cbn [c_elems c_rows]. apply Exists_cons_tl, Exists_cons_hd. cbn. lia.
Qed.
(** the matrix with 1 at (0,0) and at (1,1), and one element too many: the product of the file's
    two proper elements with (7, 20) is (7, 20), the library computes (20, 350) *)
Example C103_ex_last b : exists A, read_bin_CSR (H := ex_W16) ex_reprZ 1 (Some (write_bin_COO ex_reprZ 1 ex_row255)) = Ok (0%Z, Some A) /\
  all_schedules (csr_spmv A [7%Z; 20%Z] b) (heap_of b [0%Z; 0%Z]) tt (heap_of b [20%Z; 350%Z]) /\
  y_plus_Ax (bfilter (fun e => row e <? 2) (c_elems ex_row255)) 2 [7%Z; 20%Z] [0%Z; 0%Z] = [7%Z; 20%Z].
Proof.
  destruct (C103_last_index (H0 := ex_W16) ex_reprZ 1 ex_bytes1 ex_storableZ ex_row255 [7%Z; 20%Z] [0%Z; 0%Z] b) as (A & HA & _ & H1 & _).
  - unfold fits, c_nnz, ex_row255. cbn. split; [lia|]. split; [lia|]. split; [lia|]. repeat (constructor; [cbn; lia|]). constructor.
  - cbn. lia.
  - unfold ex_row255. cbn [c_elems c_rows]. repeat (constructor; [cbn; lia|]). constructor.
  - unfold ex_row255. cbn [c_elems length]. repeat (constructor; [cbn; lia|]). constructor.
  - done.
  - exists A. split; [exact HA|].
    assert (Heq : imap (fun i yi => fold_left (accum [7%Z; 20%Z]) (misread_file (H0 := ex_W16) (c_elems ex_row255) i) yi) [0%Z; 0%Z] = [20%Z; 350%Z]) by (vm_compute; reflexivity).
    rewrite Heq in H1. split; [exact H1|vm_compute; reflexivity].
Qed.
(** a file of four elements that ends after its third row number (1): row 1 gets the fourth *)
Example C103_ex_cut : exists A, read_bin_CSR (H := ex_W16) ex_reprZ 1 (Some [2; 2; 4; 0; 0; 1]) = Ok (0%Z, Some A) /\
  csr_nonzeros A = Ok 4 /\ aget (csr_ptr A) 1 = Ok 2 /\ aget (csr_ptr A) 2 = Ok 4 /\ csr_ind A = [None; None; None; None].
Proof.
  assert (Hf : @fits ex_W16 Z ex_good).
  { unfold fits, c_nnz, ex_good. cbn. split; [lia|]. split; [lia|]. split; [lia|]. repeat (constructor; [cbn; lia|]). constructor. }
  assert (Hr : in_range (c_rows ex_good) (c_cols ex_good) (c_elems ex_good)).
  { unfold in_range, ex_good. cbn [c_elems c_rows c_cols]. repeat (constructor; [cbn; lia|]). constructor. }
  destruct (C103_rows_cut (H0 := ex_W16) ex_reprZ 1 ex_bytes1 ex_storableZ ex_good 3 1 Hf) as (A & HA & _ & _ & Hn & Hp & Hi & _);
    [cbn; lia|exact Hr|unfold c_nnz, ex_good; cbn [c_elems length]; lia|done|].
  exists A. split; [exact HA|]. split; [exact Hn|].
  destruct (Hp 0) as (s & t & Hs & Ht & Hst); [cbn; lia|]. destruct (Hp 1) as (s' & t' & Hs' & Ht' & Hst'); [cbn; lia|].
  cbn [Nat.add] in *. rewrite Ht in Hs'. injection Hs' as <-.
  assert (Hz : s = 0).
  { vm_compute in HA. injection HA as <-. vm_compute in Hs. injection Hs as <-. done. }
  subst s. vm_compute in Hst, Hst'. subst t. vm_compute in Hst'. subst t'. split; [exact Ht|]. split; [exact Ht'|exact Hi].
Qed.
Example C103_ex_broken : read_bin_CSR (H := ex_W16) ex_reprZ 1 (Some [2; 2; 4]) = Undef Uninit /\
  (* two-byte indices: the file ends inside the second row number *)
  read_bin_CSR (H := {| itW := 256 * 256; sitW := 16 |}) ex_reprZ 2 (Some [2; 0; 2; 0; 4; 0; 0; 0; 0]) = Undef Uninit.
Proof.
  split.
  - apply (C103_rows_broken (H0 := ex_W16) ex_reprZ 1 ex_bytes1 ex_storableZ ex_good 0 0); [| | | |lia|by right].
    + unfold fits, c_nnz, ex_good. cbn. split; [lia|]. split; [lia|]. split; [lia|]. repeat (constructor; [cbn; lia|]). constructor.
    + cbn. lia.
    + unfold in_range, ex_good. cbn [c_elems c_rows c_cols]. repeat (constructor; [cbn; lia|]). constructor.
    + unfold c_nnz, ex_good. cbn [c_elems length]. lia.
  - unfold read_bin_CSR. cbn [fread1 index_repr sz]. vm_compute. reflexivity.
Qed.
