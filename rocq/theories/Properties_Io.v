(** Properties_Io.v: C51-C55 and C58, binary files (include/io/input.h, output.h).

    Values of type T are stored by any representation RT of a fixed positive size that
    decodes what it encodes ([faithful]); indices are unsigned numbers of k bytes,
    so the index type has itW = 256^k values. *)
From Verif Require Import IoProof.

Definition index_bytes `{Widths} (k : nat) : Prop := 0 < k /\ itW = 256 ^ k.
(** a representation that is faithful on every value *)
Definition storable {T} (RT : repr T) : Prop :=
  0 < sz RT /\ forall v, length (enc RT v) = sz RT /\ dec RT (enc RT v) = v.
(** dimensions, number of elements and indices are values of the index type *)
Definition fits `{Widths} {T} (B : coo T) : Prop :=
  c_rows B < itW /\ c_cols B < itW /\ c_nnz B < itW /\ Forall (fun e => row e < itW /\ col e < itW) (c_elems B).
(** the arrays filled by a reader hold exactly the matrix B *)
Definition raw_of {T} (B : coo T) : rawcoo T :=
  RawCoo (c_rows B) (c_cols B) (c_nnz B) (full (row <$> c_elems B)) (full (col <$> c_elems B)) (full (val <$> c_elems B)).

Section io.
  Context {T : Type} `{Widths} (RT : repr T) (k : nat) (Hk : index_bytes k) (HRT : storable RT).
  Implicit Types B : coo T.
  Notation RI := (index_repr k).

  Lemma faithful_RI (P : nat -> Prop) : (forall n, P n -> n < itW) -> faithful P RI.
  Proof using Hk. destruct Hk as [H1 H2]. intros HP. apply faithful_index; [done|]. intros n Hn. rewrite <- H2. auto. Qed.
  Lemma faithful_RT (P : T -> Prop) : faithful P RT.
  Proof using HRT. destruct HRT as [H1 H2]. split; [done|]. intros v _. apply H2. Qed.
  Lemma itW_pos : 0 < itW.
  Proof using Hk. destruct Hk as [_ ->]. assert (256 ^ k <> 0) by (by apply Nat.pow_nonzero). lia. Qed.
  Lemma fits_rows B : fits B -> faithful (fun v => v ∈ row <$> c_elems B) RI.
  Proof using Hk.
    intros (_ & _ & _ & HE). apply faithful_RI. intros n Hn. apply elem_of_list_fmap in Hn as (e & -> & He).
    rewrite Forall_forall in HE. by apply HE.
  Qed.
  Lemma fits_cols B : fits B -> faithful (fun v => v ∈ col <$> c_elems B) RI.
  Proof using Hk.
    intros (_ & _ & _ & HE). apply faithful_RI. intros n Hn. apply elem_of_list_fmap in Hn as (e & -> & He).
    rewrite Forall_forall in HE. by apply HE.
  Qed.

  (** what the reader does after the header, on any data section *)
  Lemma read_header rows cols nnz f : rows < itW -> cols < itW -> nnz < itW ->
    read_bin_COO RT k (Some (enc RI rows ++ enc RI cols ++ enc RI nnz ++ f)) =
      ('(counter, buffer, f, ai) ← read_loop RI nnz (0, None, f) (new_arr nnz);
       '(counter, buffer, f, aj) ← read_loop RI nnz (counter, buffer, f) (new_arr nnz);
       '(counter, vbuffer, f, av) ← read_loop RT nnz (counter, None, f) (new_arr nnz);
       let A := RawCoo rows cols nnz ai aj av in
       if negb (counter =? wmul 3 nnz) then Ok ((-4)%Z, Some A) else Ok (0%Z, Some A)).
  Proof using Hk.
    intros H1 H2 H3. unfold read_bin_COO.
    rewrite fread1_enc by (apply faithful_RI; by intros ? ->).
    rewrite fread1_enc by (apply faithful_RI; by intros ? ->).
    rewrite fread1_enc by (apply faithful_RI; by intros ? ->). done.
  Qed.
  (** ... it always returns, with code 0 exactly when the number of whole items it has
      counted is 3 * nnz modulo the index type *)
  Lemma read_data nnz f rows cols : nnz < itW -> rows < itW -> cols < itW ->
    exists c1 c2 c3 A,
      c1 = Nat.min nnz (length f / k) /\
      (let f1 := if decide (nnz * k <= length f) then drop (nnz * k) f else [] in
       c2 = Nat.min nnz (length f1 / k) /\
       let f2 := if decide (nnz * k <= length f1) then drop (nnz * k) f1 else [] in
       c3 = Nat.min nnz (length f2 / sz RT)) /\
      read_bin_COO RT k (Some (enc RI rows ++ enc RI cols ++ enc RI nnz ++ f)) =
        Ok (if wrap (c1 + c2 + c3) =? wrap (3 * nnz) then 0%Z else (-4)%Z, Some A).
  Proof using Hk HRT.
    intros Hn Hr Hc. rewrite read_header by done. pose proof itW_pos as Hp.
    replace (0, None, f) with (wrap 0, @None nat, f) by (by rewrite wrap_small).
    destruct (read_loop_spec RI nnz 0 None f (new_arr nnz)) as (b1 & f1 & a1 & -> & _ & Hf1 & _); [apply Hk|apply replicate_length|].
    cbn [mbind outcome_bind].
    destruct (read_loop_spec RI nnz (0 + Nat.min nnz (length f / sz RI)) b1 f1 (new_arr nnz)) as (b2 & f2 & a2 & -> & _ & Hf2 & _); [apply Hk|apply replicate_length|].
    cbn [mbind outcome_bind].
    match goal with |- context [read_loop RT nnz (wrap ?c, None, f2)] =>
      destruct (read_loop_spec RT nnz c None f2 (new_arr nnz)) as (b3 & f3 & a3 & -> & _ & _ & _) end; [apply HRT|apply replicate_length|].
    cbn [mbind outcome_bind]. cbv zeta.
    eexists _, _, _, _. split; [done|]. cbv zeta.
    change (sz RI) with k in *. rewrite <- Hf1, <- Hf2. split; [done|].
    unfold wmul. rewrite Nat.add_0_l. by destruct (_ =? _).
  Qed.

  (** ** C51 *)
  Lemma read_write B rest : fits B ->
    read_bin_COO RT k (Some (write_bin_COO RT k B ++ rest)) = Ok (0%Z, Some (raw_of B)).
  Proof using Hk HRT.
    intros HB. pose proof HB as (Hr & Hc & Hn & HE). unfold write_bin_COO. rewrite <- !app_assoc.
    rewrite read_header by done. pose proof itW_pos as Hp.
    replace (0, None, fwrite RI (row <$> c_elems B) ++ fwrite RI (col <$> c_elems B) ++ fwrite RT (val <$> c_elems B) ++ rest)
      with (wrap 0, @None nat, fwrite RI (row <$> c_elems B) ++ fwrite RI (col <$> c_elems B) ++ fwrite RT (val <$> c_elems B) ++ rest) by (by rewrite wrap_small).
    destruct (read_loop_fwrite RI (row <$> c_elems B) (fwrite RI (col <$> c_elems B) ++ fwrite RT (val <$> c_elems B) ++ rest) 0 None) as [b1 H1]; [by apply fits_rows|].
    rewrite fmap_length in H1. fold (c_nnz B) in H1. rewrite H1. cbn [mbind outcome_bind].
    destruct (read_loop_fwrite RI (col <$> c_elems B) (fwrite RT (val <$> c_elems B) ++ rest) (0 + c_nnz B) b1) as [b2 H2]; [by apply fits_cols|].
    rewrite fmap_length in H2. fold (c_nnz B) in H2. rewrite H2. cbn [mbind outcome_bind].
    destruct (read_loop_fwrite RT (val <$> c_elems B) rest (0 + c_nnz B + c_nnz B) None) as [b3 H3]; [apply faithful_RT|].
    rewrite fmap_length in H3. fold (c_nnz B) in H3. rewrite H3. cbn [mbind outcome_bind]. cbv zeta.
    unfold wmul. replace (0 + c_nnz B + c_nnz B + c_nnz B) with (3 * c_nnz B) by lia. by rewrite Nat.eqb_refl.
  Qed.
End io.

Theorem C51_bin_roundtrip {T} `{Widths} (RT : repr T) (k : nat) (B : coo T) :
  index_bytes k -> storable RT -> fits B ->
  read_bin_COO RT k (Some (write_bin_COO RT k B)) = Ok (0%Z, Some (raw_of B)).
Proof. intros Hk HR HB. rewrite <- (app_nil_r (write_bin_COO RT k B)). by apply read_write. Qed.
(** a value type of two bytes and a matrix to store *)
Definition ex_RT : repr (nat * nat) := {| sz := 2; enc := fun p => [p.1; p.2]; dec := fun l => (nth 0 l 0, nth 1 l 0) |}.
Definition ex_W16 : Widths := {| itW := 256 ^ 1; sitW := 16 |}.
Definition ex_file_coo : coo (nat * nat) := Coo 3 200 [Elem 2 5 (7, 8) 0; Elem 0 199 (1, 0) 0; Elem 2 5 (255, 255) 0].
Definition ex_sorted_coo : coo (nat * nat) := Coo 3 200 [Elem 0 199 (1, 0) 0; Elem 2 5 (7, 8) 0; Elem 2 5 (255, 255) 0].
Lemma ex_storable : storable ex_RT.
Proof. split; [simpl; lia|]. by intros []. Qed.
Lemma ex_fits : @fits ex_W16 (nat * nat) ex_file_coo.
Proof. unfold fits. cbn. repeat split; try lia. repeat (constructor; [cbn; lia|]). constructor. Qed.
Example C51_ex : @index_bytes ex_W16 1 /\ storable ex_RT /\ @fits ex_W16 (nat * nat) ex_file_coo /\
  write_bin_COO ex_RT 1 ex_file_coo = [3; 200; 3; 2; 0; 2; 5; 199; 5; 7; 8; 1; 0; 255; 255].
Proof. split; [split; [lia|done]|]. split; [exact ex_storable|]. split; [exact ex_fits|done]. Qed.

(** ** C52 *)
Theorem C52_truncated_rejected {T} `{Widths} (RT : repr T) (k : nat) (B : coo T) (m : nat) :
  index_bytes k -> storable RT -> fits B -> 3 * c_nnz B < itW ->
  m < length (write_bin_COO RT k B) ->
  exists code A, read_bin_COO RT k (Some (take m (write_bin_COO RT k B))) = Ok (code, A) /\ (code < 0)%Z.
Proof.
  intros Hk HR HB H3 Hm. pose proof HB as (Hr & Hc & Hn & HE). pose proof Hk as [Hk0 _].
  set (header := enc (index_repr k) (c_rows B) ++ enc (index_repr k) (c_cols B) ++ enc (index_repr k) (c_nnz B)).
  set (data := fwrite (index_repr k) (row <$> c_elems B) ++ fwrite (index_repr k) (col <$> c_elems B) ++ fwrite RT (val <$> c_elems B)).
  assert (Hw : write_bin_COO RT k B = header ++ data) by (unfold write_bin_COO, header, data; by rewrite <- !app_assoc).
  assert (Hhl : length header = k + k + k).
  { unfold header. rewrite !app_length. simpl. rewrite !le_bytes_length. lia. }
  assert (Hdl : length data = c_nnz B * k + c_nnz B * k + c_nnz B * sz RT).
  { unfold data. rewrite !app_length. rewrite (fwrite_length (index_repr k) (row <$> c_elems B)), (fwrite_length (index_repr k) (col <$> c_elems B)), (fwrite_length RT).
    - rewrite !fmap_length. unfold c_nnz. simpl. lia.
    - intros v _. apply HR.
    - intros v _. apply le_bytes_length.
    - intros v _. apply le_bytes_length. }
  rewrite Hw in *. rewrite app_length, Hhl, Hdl in Hm. destruct (decide (m < k + k + k)) as [Hlt|Hge].
  - (* inside the header *)
    exists (-2)%Z, None. split; [|done]. unfold read_bin_COO.
    set (f := take m (header ++ data)). assert (Hfl : length f = m) by (unfold f; apply take_length_le; rewrite app_length; lia).
    clearbody f. clear -Hfl Hlt Hk0.
    unfold fread1. cbn [sz index_repr].
    repeat (match goal with |- context [decide ?P] => destruct (decide P); cbn [length] in * end; rewrite ?drop_length in *; try lia);
      try (cbn; by destruct f); cbn; try done.
  - assert (Htake : take m (header ++ data) = header ++ take (m - (k + k + k)) data).
    { rewrite take_app_ge by lia. by rewrite Hhl. }
    rewrite Htake. unfold header. rewrite <- !app_assoc.
    set (f := take (m - (k + k + k)) data).
    assert (Hfl : length f = m - (k + k + k)) by (unfold f; apply take_length_le; lia).
    destruct (read_data RT k Hk HR (c_nnz B) f (c_rows B) (c_cols B) Hn Hr Hc) as (c1 & c2 & c3 & A & H1 & H2 & Hrd).
    cbv zeta in H2. destruct H2 as [H2 H3'].
    exists (-4)%Z, (Some A). split; [|done]. rewrite Hrd.
    assert (c1 + c2 + c3 < 3 * c_nnz B) as Hlt.
    { destruct (decide (c_nnz B = 0)) as [Hz|Hz].
      { rewrite Hz in Hdl, Hm. lia. }
      assert (Hmono : forall n L s, 0 < s -> Nat.min n (L / s) <= n) by (intros; lia).
      assert (c1 <= c_nnz B /\ c2 <= c_nnz B /\ c3 <= c_nnz B) as (L1 & L2 & L3) by (subst c1 c2 c3; lia).
      destruct (decide (c_nnz B * k <= length f)) as [Hf1|Hf1].
      - rewrite drop_length in H2, H3'. destruct (decide (c_nnz B * k <= length f - c_nnz B * k)) as [Hf2|Hf2].
        + assert (c3 < c_nnz B); [|lia]. rewrite drop_length, drop_length in H3'. subst c3.
          apply Nat.min_lt_iff. right. apply Nat.div_lt_upper_bound; [destruct HR; lia|]. lia.
        + assert (c2 < c_nnz B); [|lia]. subst c2. apply Nat.min_lt_iff. right. apply Nat.div_lt_upper_bound; lia.
      - assert (c1 < c_nnz B); [|lia]. subst c1. apply Nat.min_lt_iff. right. apply Nat.div_lt_upper_bound; lia. }
    rewrite !wrap_small by lia. by rewrite (proj2 (Nat.eqb_neq _ _)) by lia.
Qed.
(** ... but a file so large that the counter wraps is accepted although it ends before its
    values: no value is read, the code is 0 *)
Lemma read_loop_nil {A} `{Widths} (R : repr A) n c : 0 < sz R -> 0 < itW ->
  read_loop R n (wrap c, None, []) (new_arr n) = Ok (wrap c, None, [], new_arr n).
Proof.
  intros Hs Hp. unfold read_loop. apply wp_eq.
  apply (wp_for_range (fun _ st => st = (wrap c, None, [], new_arr n))); [lia|done|].
  intros i st Hi ->. unfold fread1. cbn [length]. rewrite decide_False by lia. cbn [mbind outcome_bind].
  unfold astore. rewrite decide_True by (unfold new_arr; rewrite replicate_length; lia). cbn [mbind outcome_bind wp].
  rewrite wrap_wadd, Nat.add_0_r. f_equal.
  unfold new_arr. apply list_eq. intros j. destruct (decide (j = i)) as [->|Hne].
  - rewrite list_lookup_insert by (rewrite replicate_length; lia). by rewrite lookup_replicate_2 by lia.
  - by rewrite list_lookup_insert_ne.
Qed.
Theorem C52_truncated_rejected_refuted {T} `{Widths} (RT : repr T) (k : nat) (B : coo T) :
  index_bytes k -> storable RT -> fits B -> itW <= 3 * c_nnz B ->
  exists m A, m < length (write_bin_COO RT k B) - c_nnz B * sz RT /\
    read_bin_COO RT k (Some (take m (write_bin_COO RT k B))) = Ok (0%Z, Some A) /\
    r_nnz A = c_nnz B /\ (forall i, i < c_nnz B -> r_val A !! i = Some None).
Proof.
  intros Hk HR HB H3. pose proof HB as (Hr & Hc & Hn & HE). pose proof Hk as [Hk0 _].
  pose proof (itW_pos k Hk) as Hp.
  set (header := enc (index_repr k) (c_rows B) ++ enc (index_repr k) (c_cols B) ++ enc (index_repr k) (c_nnz B)).
  set (data := fwrite (index_repr k) (row <$> c_elems B) ++ fwrite (index_repr k) (col <$> c_elems B) ++ fwrite RT (val <$> c_elems B)).
  assert (Hw : write_bin_COO RT k B = header ++ data) by (unfold write_bin_COO, header, data; by rewrite <- !app_assoc).
  assert (Hhl : length header = k + k + k).
  { unfold header. rewrite !app_length. simpl. rewrite !le_bytes_length. lia. }
  assert (Hdl : length data = c_nnz B * k + c_nnz B * k + c_nnz B * sz RT).
  { unfold data. rewrite !app_length. rewrite (fwrite_length (index_repr k) (row <$> c_elems B)), (fwrite_length (index_repr k) (col <$> c_elems B)), (fwrite_length RT).
    - rewrite !fmap_length. unfold c_nnz. simpl. lia.
    - intros v _. apply HR.
    - intros v _. apply le_bytes_length.
    - intros v _. apply le_bytes_length. }
  rewrite Hw in *. rewrite app_length, Hhl, Hdl.
  set (d := 3 * c_nnz B - itW). assert (Hd : d < 2 * c_nnz B) by lia.
  assert (Hdk : d * k < 2 * c_nnz B * k) by (apply Nat.mul_lt_mono_pos_r; lia).
  exists (k + k + k + d * k). 
  rewrite take_app_ge by lia. rewrite Hhl. replace (k + k + k + d * k - (k + k + k)) with (d * k) by lia.
  set (f := take (d * k) data). assert (Hfl : length f = d * k) by (unfold f; apply take_length_le; lia).
  clearbody f. unfold header. rewrite <- !app_assoc. rewrite (read_header RT k Hk) by done.
  replace (0, None, f) with (wrap 0, @None nat, f) by (by rewrite wrap_small).
  destruct (read_loop_spec (index_repr k) (c_nnz B) 0 None f (new_arr (c_nnz B))) as (b1 & f1 & a1 & -> & _ & Hf1 & _); [done|apply replicate_length|].
  cbn [mbind outcome_bind].
  destruct (read_loop_spec (index_repr k) (c_nnz B) (0 + Nat.min (c_nnz B) (length f / sz (index_repr k))) b1 f1 (new_arr (c_nnz B))) as (b2 & f2 & a2 & -> & _ & Hf2 & _); [done|apply replicate_length|].
  cbn [mbind outcome_bind]. change (sz (index_repr k)) with k in *.
  assert (Hlf1 : length f1 = (d - c_nnz B) * k).
  { rewrite Hf1. destruct (decide (c_nnz B * k <= length f)) as [Hd1|Hd1]; [rewrite drop_length, Hfl; nia|]. rewrite Hfl in Hd1. simpl.
    assert (d < c_nnz B) by (apply Nat.nle_gt; intros ?; apply Hd1; by apply Nat.mul_le_mono_r). replace (d - c_nnz B) with 0 by lia. done. }
  assert (Hf2n : f2 = []).
  { rewrite Hf2, decide_False; [done|]. rewrite Hlf1. apply Nat.lt_nge, Nat.mul_lt_mono_pos_r; lia. }
  rewrite Hf2n, read_loop_nil by (destruct HR; lia). cbn [mbind outcome_bind].
  rewrite Hlf1, Hfl, !Nat.div_mul by lia.
  replace (0 + c_nnz B `min` d + c_nnz B `min` (d - c_nnz B)) with d by lia.
  assert (wrap d = wmul 3 (c_nnz B)) as ->.
  { unfold wmul, wrap, d. replace (3 * c_nnz B) with (3 * c_nnz B - itW + 1 * itW) at 2 by lia. by rewrite Nat.mod_add by lia. }
  rewrite Nat.eqb_refl. eexists. split; [lia|]. split; [done|]. split; [done|].
  intros i Hi. cbn [r_val]. unfold new_arr. by rewrite lookup_replicate_2.
Qed.
Example C52_ex : @index_bytes ex_W16 1 /\ storable ex_RT /\ @fits ex_W16 (nat * nat) ex_file_coo /\ 3 * c_nnz ex_file_coo < 256 /\
  (let B := Coo 3 200 (replicate 100 (Elem 2 5 (7, 8) 0)) in
   @fits ex_W16 (nat * nat) B /\ 256 <= 3 * c_nnz B).
Proof.
  split; [split; [lia|done]|]. split; [exact ex_storable|]. split; [exact ex_fits|]. split; [cbn; lia|].
  split; [|cbn; lia]. split; [cbn; lia|]. split; [cbn; lia|]. split; [cbn; lia|]. apply Forall_replicate. cbn. lia.
Qed.

(** ** C53 *)
(** the row section of the file is read one item at a time *)
Lemma fread_rows `{Widths} k (l : list nat) (rows : nat) (rest : bytes) :
  index_bytes k -> Forall (fun r => r < rows) l -> rows + 1 < itW -> length l < itW ->
  exists cr, for_range 0 (length l)
    (fun (i : nat) '(current_row, f, ptr) =>
       let '(_, current_row, f) := fread1 (index_repr k) current_row f in
       match current_row with
       | None => Undef Uninit
       | Some r => ptr ← incr ptr (wadd r 1); Ok (current_row, f, ptr)
       end) (None, fwrite (index_repr k) l ++ rest, new_arr0 0 (S rows)) = Ok (cr, rest, full (counters l rows)).
Proof.
  intros Hk Hl Hr Hn.
  pose (J := fun (i : nat) (st : option nat * bytes * arr nat) => let '(_, f, ptr) := st in
     f = fwrite (index_repr k) (drop i l) ++ rest /\ ptr = full (counters (take i l) rows)).
  match goal with |- context [for_range 0 _ ?bd ?i] => assert (Hw : wp (for_range 0 (length l) bd i) (J (length l))) end.
  { apply wp_for_range; [lia| |].
    - unfold J. rewrite take_0, drop_0, counters_nil. done.
    - intros i [[cr f] ptr] Hi [-> ->]. destruct (lookup_lt_is_Some_2 l i) as [r Hir]; [lia|].
      rewrite Forall_lookup in Hl. pose proof (Hl _ _ Hir) as Hrr. cbv beta in Hrr.
      rewrite (drop_S l r i Hir), fwrite_cons, <- app_assoc, fread1_enc by (apply (faithful_RI k Hk); intros ? ->; lia).
      assert (wadd r 1 = r + 1) as -> by (apply wrap_small; lia).
      rewrite incr_step by (rewrite ?take_length; lia). cbn [mbind outcome_bind wp]. unfold J.
      split; [done|]. by rewrite (take_S_r _ _ _ Hir). }
  apply wp_exists in Hw as ([[cr f] ptr] & -> & -> & ->). exists cr. by rewrite drop_all, firstn_all.
Qed.
(** the matrix the reader builds from the header, the rows and whatever follows *)
Lemma read_csr_rows {T} `{Scalar T} `{Widths} (RT : repr T) (k : nat) (B : coo T) (rest : bytes) :
  index_bytes k -> storable RT -> fits B -> in_range (c_rows B) (c_cols B) (c_elems B) -> c_rows B + 1 < itW ->
  read_bin_CSR RT k (Some (enc (index_repr k) (c_rows B) ++ enc (index_repr k) (c_cols B) ++ enc (index_repr k) (c_nnz B) ++ fwrite (index_repr k) (row <$> c_elems B) ++ rest)) =
    (let '(ind, f) := fread_items (index_repr k) (c_nnz B) rest in
     let '(v, f) := fread_items RT (c_nnz B) f in
     Ok (0%Z, Some (Csr (c_rows B) (c_cols B) (full (ptrs (row <$> c_elems B) (c_rows B)))
        (full ind ++ new_arr (c_nnz B - length ind)) (full v ++ new_arr (c_nnz B - length v))))).
Proof.
  intros Hk HR HB HE Hr1. pose proof HB as (Hr & Hc & Hn & HF). unfold read_bin_CSR.
  rewrite fread1_enc by (apply (faithful_RI k Hk); by intros ? ->).
  rewrite fread1_enc by (apply (faithful_RI k Hk); by intros ? ->).
  rewrite fread1_enc by (apply (faithful_RI k Hk); by intros ? ->).
  assert (wadd (c_rows B) 1 = S (c_rows B)) as -> by (unfold wadd; rewrite wrap_small; lia).
  pose proof (in_range_rows _ _ _ HE) as HE'.
  destruct (fread_rows k (row <$> c_elems B) (c_rows B) rest Hk) as [cr Hcr]; [by apply Forall_fmap|done|by rewrite fmap_length|].
  rewrite fmap_length in Hcr. fold (c_nnz B) in Hcr. rewrite Hcr. cbn [mbind outcome_bind].
  destruct (fread_items (index_repr k) (c_nnz B) rest) as [ind f]. destruct (fread_items RT (c_nnz B) f) as [v f'].
  rewrite prefix_sum_spec by (rewrite fmap_length; done). cbn [mbind outcome_bind].
  rewrite ptrs_get by lia. cbn [mbind outcome_bind].
  rewrite cntlt_all, fmap_length by (by apply Forall_fmap). fold (c_nnz B). rewrite Nat.eqb_refl. done.
Qed.
Lemma read_csr_file {T} `{Scalar T} `{Widths} (RT : repr T) (k : nat) (B : coo T) :
  index_bytes k -> storable RT -> fits B -> in_range (c_rows B) (c_cols B) (c_elems B) -> c_rows B + 1 < itW ->
  read_bin_CSR RT k (Some (write_bin_COO RT k B)) =
    Ok (0%Z, Some (Csr (c_rows B) (c_cols B) (full (ptrs (row <$> c_elems B) (c_rows B))) (full (col <$> c_elems B)) (full (val <$> c_elems B)))).
Proof.
  intros Hk HR HB HE Hr1. unfold write_bin_COO. rewrite read_csr_rows by done.
  pose proof (fread_items_fwrite (index_repr k) (col <$> c_elems B) (fwrite RT (val <$> c_elems B)) (fits_cols k Hk B HB)) as H1.
  rewrite fmap_length in H1. fold (c_nnz B) in H1. rewrite H1.
  pose proof (fread_items_fwrite RT (val <$> c_elems B) [] (faithful_RT RT HR _)) as H2. rewrite app_nil_r in H2.
  rewrite fmap_length in H2. fold (c_nnz B) in H2. rewrite H2. rewrite !fmap_length. fold (c_nnz B).
  replace (c_nnz B - c_nnz B) with 0 by lia. unfold new_arr. cbn [replicate]. by rewrite !app_nil_r.
Qed.

(** a file whose elements are in the order of rows and columns is read as the matrix the
    conversion from coordinates builds *)
Theorem C53_csr_from_sorted {T} `{Scalar T} `{Widths} (RT : repr T) (k : nat) (B : coo T) :
  index_bytes k -> storable RT -> fits B -> in_range (c_rows B) (c_cols B) (c_elems B) -> c_rows B + 1 < itW ->
  StronglySorted (fun e1 e2 => row e1 < row e2 \/ row e1 = row e2 /\ col e1 <= col e2) (c_elems B) ->
  exists A, read_bin_CSR RT k (Some (write_bin_COO RT k B)) = Ok (0%Z, Some A) /\ Coo_to_Csr B = Ok (A, B).
Proof.
  intros Hk HR HB HE Hr1 Hs. eexists. split; [by apply read_csr_file|].
  pose proof HB as (Hr & Hc & Hn & HF).
  pose proof (Coo_to_Csr_spec B HE Hr1 Hn) as HA. cbv zeta in HA. rewrite HA.
  assert (isort compare_row (c_elems B) = c_elems B) as ->.
  { apply isort_id. clear -Hs. induction Hs as [|e l Hs IH Hf]; constructor; [done|]. eapply Forall_impl; [exact Hf|].
    intros e' He'. cbv beta in He'. unfold cle, compare_row. rewrite orb_false_iff, andb_false_iff, !Nat.ltb_ge, Nat.eqb_neq. lia. }
  by destruct B.
Qed.
(** ... a file sorted by row only (columns in any order) as a matrix that adds up each row
    in file order *)
Theorem C53_csr_from_row_sorted {T} `{Scalar T} `{Widths} (RT : repr T) (k : nat) (B : coo T) (x y : list T) (b : buf) :
  index_bytes k -> storable RT -> fits B -> in_range (c_rows B) (c_cols B) (c_elems B) -> c_rows B + 1 < itW ->
  StronglySorted (fun e1 e2 => row e1 <= row e2) (c_elems B) ->
  c_cols B <= length x -> length y = c_rows B ->
  exists A, read_bin_CSR RT k (Some (write_bin_COO RT k B)) = Ok (0%Z, Some A) /\
    all_schedules (csr_spmv A x b) (heap_of b y) tt (heap_of b (spmv_in_order (c_elems B) x y)).
Proof.
  intros Hk HR HB HE Hr1 Hs Hx Hy. eexists. split; [by apply read_csr_file|].
  assert (Hrep := csr_build_rep (fun c => c) (c_elems B) (c_rows B) Hs). rewrite <- Hy in *.
  pose proof (performs_vector (csr_spmv (Csr (length y) (c_cols B) (full (ptrs (row <$> c_elems B) (length y))) (full (col <$> c_elems B)) (full (val <$> c_elems B))) x b)
    b y (fun _ => False) (fun j yj => fold_left (accum (drop 0 x)) (bfilter (in_row j) (c_elems B)) yj)) as Hall.
  rewrite drop_0 in Hall. apply Hall; [|by intros []].
  unfold csr_spmv. cbn [csr_ptr csr_ind csr_vals csr_rows].
  eapply performs_spmv_csr; [apply Hrep; by apply Forall_true|by apply rows_cols_ok|done].
Qed.
(** ... and any other file, without any complaint, as the matrix that has the rows of the
    file in increasing order beside the columns and values in file order *)
Theorem C53_csr_from_unsorted_mixes {T} `{Scalar T} `{Widths} (RT : repr T) (k : nat) (B : coo T) (rs : list nat) :
  index_bytes k -> storable RT -> fits B -> in_range (c_rows B) (c_cols B) (c_elems B) -> c_rows B + 1 < itW ->
  rs ≡ₚ row <$> c_elems B -> StronglySorted le rs ->
  let mixed := Coo (c_rows B) (c_cols B) (zip_with (fun r e => Elem r (col e) (val e) 0) rs (c_elems B)) in
  exists A, read_bin_CSR RT k (Some (write_bin_COO RT k B)) = Ok (0%Z, Some A) /\
    forall x y b, c_cols B <= length x -> length y = c_rows B ->
      all_schedules (csr_spmv A x b) (heap_of b y) tt (heap_of b (spmv_in_order (c_elems mixed) x y)).
Proof.
  intros Hk HR HB HE Hr1 Hp Hs mixed.
  assert (Hlen : length rs = length (c_elems B)) by (by rewrite Hp, fmap_length).
  assert (Hrows : row <$> c_elems mixed = rs).
  { cbn. clear -Hlen. revert Hlen. generalize (c_elems B). induction rs as [|r rs IH]; intros [|e E] Hl; simpl in *; try done. f_equal. apply IH. lia. }
  assert (Hcols : col <$> c_elems mixed = col <$> c_elems B).
  { cbn. clear -Hlen. revert Hlen. generalize (c_elems B). induction rs as [|r rs IH]; intros [|e E] Hl; simpl in *; try done. f_equal. apply IH. lia. }
  assert (Hvals : val <$> c_elems mixed = val <$> c_elems B).
  { cbn. clear -Hlen. revert Hlen. generalize (c_elems B). induction rs as [|r rs IH]; intros [|e E] Hl; simpl in *; try done. f_equal. apply IH. lia. }
  assert (Hrl : Forall (fun r => r < c_rows B /\ r < itW) rs).
  { rewrite Hp, Forall_fmap. destruct HB as (_ & _ & _ & HF). unfold in_range in HE. rewrite Forall_forall in HF, HE |- *.
    intros e He. cbn. split; [by apply HE|by apply HF]. }
  assert (HmE : in_range (c_rows mixed) (c_cols mixed) (c_elems mixed)).
  { unfold in_range. apply Forall_lookup. intros i e He.
    assert (H1 : (row <$> c_elems mixed) !! i = Some (row e)) by (by rewrite list_lookup_fmap, He).
    assert (H2 : (col <$> c_elems mixed) !! i = Some (col e)) by (by rewrite list_lookup_fmap, He).
    rewrite Hrows in H1. rewrite Hcols in H2. rewrite Forall_lookup in Hrl. split; [by apply (Hrl i)|].
    rewrite list_lookup_fmap in H2. destruct (c_elems B !! i) as [e'|] eqn:He'; [|done]. injection H2 as <-.
    unfold in_range in HE. rewrite Forall_lookup in HE. by apply (HE i). }
  assert (HmB : fits mixed).
  { destruct HB as (H1 & H2 & H3 & H4). split; [done|]. split; [done|]. split.
    - unfold c_nnz. rewrite <- (fmap_length row), Hrows, Hlen. done.
    - apply Forall_lookup. intros i e He.
      assert (Hr' : (row <$> c_elems mixed) !! i = Some (row e)) by (by rewrite list_lookup_fmap, He).
      assert (Hc' : (col <$> c_elems mixed) !! i = Some (col e)) by (by rewrite list_lookup_fmap, He).
      rewrite Hrows in Hr'. rewrite Hcols in Hc'. rewrite Forall_lookup in Hrl. split; [by apply (Hrl i)|].
      rewrite list_lookup_fmap in Hc'. destruct (c_elems B !! i) as [e'|] eqn:He'; [|done]. injection Hc' as <-.
      rewrite Forall_lookup in H4. by apply (H4 i). }
  assert (Hsame : read_bin_CSR RT k (Some (write_bin_COO RT k B)) = read_bin_CSR RT k (Some (write_bin_COO RT k mixed))).
  { rewrite !read_csr_file by done. do 4 f_equal; [|by rewrite Hcols|by rewrite Hvals]. f_equal.
    cbn [c_rows mixed]. unfold ptrs. apply fmap_seq_ext. intros j _. unfold cntlt. rewrite Hrows.
    apply Permutation_length. apply bfilter_perm. by symmetry. }
  assert (Hms : StronglySorted (fun e1 e2 => row e1 <= row e2) (c_elems mixed)).
  { rewrite <- Hrows in Hs. clear -Hs. revert Hs. generalize (c_elems mixed). induction l as [|e l IH]; intros Hs; [constructor|].
    inversion Hs as [|? ? H1 H2]; subst. constructor; [by apply IH|]. by rewrite Forall_fmap in H2. }
  rewrite Hsame. eexists. split; [by apply read_csr_file|]. intros x y b Hx Hy.
  assert (Hr2 : c_rows mixed = c_rows B) by done. assert (Hc2 : c_cols mixed = c_cols B) by done. clearbody mixed.
  destruct (C53_csr_from_row_sorted RT k mixed x y b Hk HR HmB HmE) as (A & HA & Hsp); [by rewrite Hr2|exact Hms|by rewrite Hc2|by rewrite Hr2|].
  assert (c_rows mixed + 1 < itW) by (by rewrite Hr2). rewrite read_csr_file in HA by done. injection HA as <-. done.
Qed.
Theorem C53_unsorted_refuted {T} `{Scalar T} `{Widths} (RT : repr T) (k : nat) (v0 v1 : T) :
  index_bytes k -> storable RT ->
  let B := Coo 2 1 [Elem 1 0 v1 0; Elem 0 0 v0 0] in
  let swapped := Coo 2 1 [Elem 0 0 v1 0; Elem 1 0 v0 0] in
  exists A, read_bin_CSR RT k (Some (write_bin_COO RT k B)) = Ok (0%Z, Some A) /\ Coo_to_Csr swapped = Ok (A, swapped).
Proof.
  intros Hk HR B swapped.
  assert (Hbig : 256 <= itW).
  { destruct Hk as [Hk ->]. destruct k as [|k']; [lia|]. rewrite Nat.pow_succ_r'. pose proof (Nat.pow_nonzero 256 k' ltac:(lia)). lia. }
  exists (Csr 2 1 (full [0; 1; 2]) (full [0; 0]) (full [v1; v0])). split.
  - rewrite read_csr_file; [done|done|done| | |cbn [c_rows B]; lia].
    + unfold fits, c_nnz. cbn [c_rows c_cols c_elems B length]. split; [lia|]. split; [lia|]. split; [lia|]. repeat (constructor; [cbn; lia|]). constructor.
    + unfold in_range. cbn. repeat (constructor; [cbn; lia|]). constructor.
  - assert (HE : in_range (c_rows swapped) (c_cols swapped) (c_elems swapped)) by (unfold in_range; cbn; repeat (constructor; [cbn; lia|]); constructor).
    pose proof (Coo_to_Csr_spec swapped HE) as HA. cbv zeta in HA. rewrite HA; [done|cbn [c_rows swapped]; lia|unfold c_nnz; cbn [c_elems swapped length]; lia].
Qed.
(** ... nor is a file that ends early rejected: once the header and the rows are there the
    code is 0, whatever columns and values are missing *)
Theorem C53_truncated_refuted {T} `{Scalar T} `{Widths} (RT : repr T) (k : nat) (B : coo T) (m : nat) :
  index_bytes k -> storable RT -> fits B -> in_range (c_rows B) (c_cols B) (c_elems B) -> c_rows B + 1 < itW ->
  3 * k + c_nnz B * k <= m ->
  exists A, read_bin_CSR RT k (Some (take m (write_bin_COO RT k B))) = Ok (0%Z, Some A) /\
    length (csr_vals A) = c_nnz B /\
    (m <= 3 * k + 2 * (c_nnz B * k) -> forall i, i < c_nnz B -> csr_vals A !! i = Some None).
Proof.
  intros Hk HR HB HE Hr1 Hm. unfold write_bin_COO.
  set (rest := fwrite (index_repr k) (col <$> c_elems B) ++ fwrite RT (val <$> c_elems B)).
  set (rows := fwrite (index_repr k) (row <$> c_elems B)).
  assert (Hrl : length rows = c_nnz B * k) by (unfold rows; rewrite fwrite_length, fmap_length; [done|intros; apply le_bytes_length]).
  assert (Hlen : forall n, length (enc (index_repr k) n) = k) by (intros; apply le_bytes_length).
  rewrite take_app_ge by (rewrite Hlen; lia). rewrite take_app_ge by (rewrite !Hlen; lia). rewrite take_app_ge by (rewrite !Hlen; lia).
  rewrite take_app_ge by (rewrite !Hlen, Hrl; lia). rewrite !Hlen, Hrl. unfold rows. rewrite read_csr_rows by done.
  destruct (fread_items_spec (index_repr k) (c_nnz B) (take (m - k - k - k - c_nnz B * k) rest)) as (ind & f & -> & Hil & _ & Hf & Hf0); [apply Hk|].
  destruct (fread_items_spec RT (c_nnz B) f) as (v & f' & -> & Hvl & _ & _ & _); [apply HR|].
  eexists. split; [done|]. cbn [csr_vals]. split.
  - unfold full, new_arr. rewrite app_length, fmap_length, replicate_length. lia.
  - intros Hm2 i Hi. assert (v = []) as ->; [|cbn; unfold new_arr; rewrite lookup_replicate_2 by lia; done].
    apply nil_length_inv. rewrite Hvl. assert (f = []) as ->; [|cbn [length]; destruct HR; rewrite Nat.div_0_l by lia; lia].
    pose proof Hk as [Hk0 _]. change (sz (index_repr k)) with k in *.
    assert (Hl : length (take (m - k - k - k - c_nnz B * k) rest) <= c_nnz B * k) by (rewrite take_length; lia).
    destruct (decide (c_nnz B <= length (take (m - k - k - k - c_nnz B * k) rest) / k)) as [Hle|Hgt].
    + rewrite Hf by done. apply drop_ge. lia.
    + apply Hf0. lia.
Qed.
Example C53_ex : @index_bytes ex_W16 1 /\ storable ex_RT /\ @fits ex_W16 (nat * nat) ex_sorted_coo /\
  in_range (c_rows ex_sorted_coo) (c_cols ex_sorted_coo) (c_elems ex_sorted_coo) /\ c_rows ex_sorted_coo + 1 < 256 /\
  StronglySorted (fun e1 e2 => row e1 < row e2 \/ row e1 = row e2 /\ col e1 <= col e2) (c_elems ex_sorted_coo).
Proof.
  split; [split; [lia|done]|]. split; [exact ex_storable|].
  split; [|split; [|split]].
  - unfold fits. cbn. repeat split; try lia. repeat (constructor; [cbn; lia|]). constructor.
  - unfold in_range. cbn. repeat (constructor; [cbn; lia|]). constructor.
  - cbn. lia.
  - cbn. repeat (constructor; [|repeat (constructor; [cbn; lia|]); constructor]). constructor.
Qed.

(** ** C54 and C55 *)
Lemma max_loop_spec (l : list nat) : exists m, max_loop (full l) (length l) = Ok m /\
  (forall v, v ∈ l -> v <= m) /\ (l <> [] -> m ∈ l) /\ (l = [] -> m = 0).
Proof.
  unfold max_loop.
  match goal with |- context [for_range 0 _ ?bd ?i] => assert (Hw : wp (for_range 0 (length l) bd i)
    (fun m => (forall v, v ∈ take (length l) l -> v <= m) /\ (length l <> 0 -> m ∈ take (length l) l) /\ (length l = 0 -> m = 0))) end.
  { apply (wp_for_range (fun i m => (forall v, v ∈ take i l -> v <= m) /\ (i <> 0 -> m ∈ take i l) /\ (i = 0 -> m = 0))); [lia| |].
    - rewrite take_0. split; [|done]. intros v Hv. by apply elem_of_nil in Hv.
    - intros i m Hi (H1 & H2 & H3). destruct (lookup_lt_is_Some_2 l i) as [v Hv]; [lia|].
      rewrite aget_full, (lget_some _ _ _ Hv). cbn [mbind outcome_bind wp]. rewrite (take_S_r _ _ _ Hv).
      destruct (Nat.ltb_spec m v) as [Hlt|Hge]; (split; [|split; [|lia]]).
      + intros w [Hw|Hw%elem_of_list_singleton]%elem_of_app; [specialize (H1 w Hw)|]; lia.
      + intros _. apply elem_of_app. right. left.
      + intros w [Hw|Hw%elem_of_list_singleton]%elem_of_app; [specialize (H1 w Hw)|]; lia.
      + intros _. apply elem_of_app. destruct (decide (i = 0)) as [Hz|Hz]; [|left; auto].
        right. apply elem_of_list_singleton. rewrite H3 in * by done. lia. }
  apply wp_exists in Hw as (m & -> & H1 & H2 & H3). rewrite firstn_all in *. exists m. split; [done|]. split; [done|].
  split; [|intros ->; auto]. intros Hl. apply H2. by destruct l.
Qed.
(** the three-array reader, pretending that the second fclose of the column file is
    harmless: all elements of every file set small enough, but the smallest dimensions
    that hold them, which are the dimensions written only if the last row and the last
    column are occupied; the value file stays open *)
Theorem C54_three_files {T} `{Widths} (RT : repr T) (k : nat) (B : coo T) :
  index_bytes k -> storable RT -> fits B -> in_range (c_rows B) (c_cols B) (c_elems B) ->
  c_nnz B * sz RT < itW -> c_elems B <> [] ->
  let '(fr, fc, fv) := write_bin_COO3 RT k B in
  exists A, read_bin_COO3 RT k true (Some fr) (Some fc) (Some fv) = Ok (0%Z, Some (A, true)) /\
    r_nnz A = c_nnz B /\ r_row A = full (row <$> c_elems B) /\ r_col A = full (col <$> c_elems B) /\ r_val A = full (val <$> c_elems B) /\
    (r_rows A = c_rows B <-> exists e, e ∈ c_elems B /\ row e + 1 = c_rows B) /\
    (r_cols A = c_cols B <-> exists e, e ∈ c_elems B /\ col e + 1 = c_cols B).
Proof.
  intros Hk HR HB HE Hsz Hne. pose proof HB as (Hr & Hc & Hn & HF). pose proof HR as [Hs0 _].
  unfold write_bin_COO3. cbv iota beta. unfold read_bin_COO3, get_file_size. cbn [mbind outcome_bind].
  assert (Hvl : length (fwrite RT (val <$> c_elems B)) = c_nnz B * sz RT) by (rewrite fwrite_length, fmap_length; [done|intros; apply HR]).
  rewrite Hvl, wrap_small by done. rewrite div_ok by done. cbn [mbind outcome_bind]. rewrite Nat.div_mul by lia.
  pose proof (fread_items_fwrite (index_repr k) (row <$> c_elems B) [] (fits_rows k Hk B HB)) as H1.
  rewrite app_nil_r, fmap_length in H1. fold (c_nnz B) in H1. rewrite H1, fmap_length. clear H1.
  pose proof (fread_items_fwrite (index_repr k) (col <$> c_elems B) [] (fits_cols k Hk B HB)) as H2.
  rewrite app_nil_r, fmap_length in H2. fold (c_nnz B) in H2. rewrite H2, fmap_length. clear H2.
  pose proof (fread_items_fwrite RT (val <$> c_elems B) [] (faithful_RT RT HR _)) as H3.
  rewrite app_nil_r, fmap_length in H3. fold (c_nnz B) in H3. rewrite H3, fmap_length. clear H3.
  fold (c_nnz B). replace (c_nnz B - c_nnz B) with 0 by lia. unfold new_arr. cbn [replicate]. rewrite !app_nil_r.
  destruct (max_loop_spec (row <$> c_elems B)) as (mr & Hmr & Mr1 & Mr2 & _). rewrite fmap_length in Hmr. fold (c_nnz B) in Hmr.
  destruct (max_loop_spec (col <$> c_elems B)) as (mc & Hmc & Mc1 & Mc2 & _). rewrite fmap_length in Hmc. fold (c_nnz B) in Hmc.
  rewrite Hmr. cbn [mbind outcome_bind]. rewrite Hmc. cbn [mbind outcome_bind fclose].
  eexists. split; [done|]. cbn [r_nnz r_row r_col r_val r_rows r_cols]. do 4 (split; [done|]).
  unfold in_range in HE. rewrite Forall_forall in HE. split.
  - assert (Hin : mr ∈ row <$> c_elems B) by (apply Mr2; by destruct (c_elems B)).
    apply elem_of_list_fmap in Hin as (e & -> & He). pose proof (HE e He) as [Hre _].
    unfold wadd. rewrite wrap_small by lia. split; [by intros <-; eauto|]. intros (e' & He' & Heq).
    assert (row e' <= row e) by (apply Mr1; by apply elem_of_list_fmap_1). pose proof (HE e' He') as [? _]. lia.
  - assert (Hin : mc ∈ col <$> c_elems B) by (apply Mc2; by destruct (c_elems B)).
    apply elem_of_list_fmap in Hin as (e & -> & He). pose proof (HE e He) as [_ Hce].
    unfold wadd. rewrite wrap_small by lia. split; [by intros <-; eauto|]. intros (e' & He' & Heq).
    assert (col e' <= col e) by (apply Mc1; by apply elem_of_list_fmap_1). pose proof (HE e' He') as [_ ?]. lia.
Qed.
(** ... but the size of the value file is converted to the index type before it is divided:
    a larger file is silently read only in part *)
Theorem C54_large_refuted {T} `{Widths} (RT : repr T) (k : nat) (B : coo T) :
  index_bytes k -> storable RT -> fits B -> itW <= c_nnz B * sz RT ->
  let '(fr, fc, fv) := write_bin_COO3 RT k B in
  exists A, read_bin_COO3 RT k true (Some fr) (Some fc) (Some fv) = Ok (0%Z, Some (A, true)) /\
    r_nnz A = ((c_nnz B * sz RT) mod itW) / sz RT /\ r_nnz A < c_nnz B.
Proof.
  intros Hk HR HB Hbig. pose proof HB as (Hr & Hc & Hn & HF). pose proof HR as [Hs0 _]. pose proof (itW_pos k Hk) as Hp.
  unfold write_bin_COO3. cbv iota beta. unfold read_bin_COO3, get_file_size. cbn [mbind outcome_bind].
  assert (Hvl : length (fwrite RT (val <$> c_elems B)) = c_nnz B * sz RT) by (rewrite fwrite_length, fmap_length; [done|intros; apply HR]).
  rewrite Hvl. rewrite div_ok by done. cbn [mbind outcome_bind]. change (wrap (c_nnz B * sz RT)) with ((c_nnz B * sz RT) mod itW).
  set (s := ((c_nnz B * sz RT) mod itW) / sz RT).
  assert (Hs : s < c_nnz B).
  { unfold s. apply Nat.div_lt_upper_bound; [lia|]. pose proof (Nat.mod_upper_bound (c_nnz B * sz RT) itW ltac:(lia)). lia. }
  assert (Hpre : forall {A} (R : repr A) (l : list A), faithful (fun v => v ∈ l) R -> length l = c_nnz B ->
    exists f, fread_items R s (fwrite R l) = (take s l, f)).
  { intros A R l Hf Hl. exists (fwrite R (drop s l)). rewrite <- (take_drop s l) at 1. rewrite fwrite_app.
    assert (length (take s l) = s) as Hts by (rewrite take_length; lia). rewrite <- Hts at 1. apply fread_items_fwrite.
    eapply faithful_weak; [|exact Hf]. intros v Hv. cbv beta in Hv. eapply elem_of_take in Hv as (i & Hi & _). by eapply elem_of_list_lookup_2. }
  destruct (Hpre _ (index_repr k) (row <$> c_elems B) (fits_rows k Hk B HB)) as [f1 H1]; [apply fmap_length|].
  destruct (Hpre _ (index_repr k) (col <$> c_elems B) (fits_cols k Hk B HB)) as [f2 H2]; [apply fmap_length|].
  destruct (Hpre _ RT (val <$> c_elems B) (faithful_RT RT HR _)) as [f3 H3]; [apply fmap_length|].
  rewrite H1, H2, H3.
  assert (Hl1 : length (take s (row <$> c_elems B)) = s) by (rewrite take_length, fmap_length; unfold c_nnz in Hs; lia).
  assert (Hl2 : length (take s (col <$> c_elems B)) = s) by (rewrite take_length, fmap_length; unfold c_nnz in Hs; lia).
  destruct (max_loop_spec (take s (row <$> c_elems B))) as (mr & Hmr & _). rewrite Hl1 in Hmr.
  destruct (max_loop_spec (take s (col <$> c_elems B))) as (mc & Hmc & _). rewrite Hl2 in Hmc.
  rewrite Hl1, Hl2. replace (s - s) with 0 by lia. unfold new_arr. cbn [replicate]. rewrite !app_nil_r.
  rewrite Hmr. cbn [mbind outcome_bind]. rewrite Hmc. cbn [mbind outcome_bind fclose].
  eexists. split; [done|]. done.
Qed.
(** the generic reader never returns a matrix: for any three existing files, and whatever
    is assumed about the uninitialised counter and the second fclose *)
Lemma read_loop3_settles {A T'} `{Widths} (R : repr A) n c b f (a : arr A) (cont : option nat * option A * bytes * arr A -> outcome T') :
  (forall st, exists u, cont st = Undef u) -> exists u, (read_loop3 R n c b f a ≫= cont) = Undef u.
Proof.
  intros Hc. unfold read_loop3, for_range. rewrite Nat.sub_0_r. revert c b f a. generalize 0.
  induction n as [|n IH]; intros lo c b f a; cbn [for_n].
  - cbn [mbind outcome_bind]. apply Hc.
  - destruct (fread1 R b f) as [[m b'] f']. unfold count_up. destruct c as [c|]; [|cbn; eauto]. cbn [mbind outcome_bind].
    unfold astore. case_decide; [|cbn; eauto]. cbn [mbind outcome_bind]. apply IH.
Qed.
Theorem C54_generic_refuted {T} `{Widths} (RT : repr T) (k : nat) (forgiving : bool) (counter0 : option nat) (fr fc fv : bytes) :
  0 < sz RT -> exists u, read_bin_COO3_generic RT k forgiving counter0 (Some fr) (Some fc) (Some fv) = Undef u.
Proof.
  intros Hs. unfold read_bin_COO3_generic, get_file_size. cbn [mbind outcome_bind]. rewrite div_ok by done. cbn [mbind outcome_bind].
  apply read_loop3_settles. intros [[[counter buffer] f] ai]. apply read_loop3_settles. intros [[[counter2 buffer2] f2] aj].
  cbn [fclose mbind outcome_bind]. apply read_loop3_settles. intros [[[counter3 buffer3] f3] av].
  destruct forgiving; cbn; eauto.
Qed.
Example C54_ex : @index_bytes ex_W16 1 /\ storable ex_RT /\ @fits ex_W16 (nat * nat) ex_file_coo /\
  in_range (c_rows ex_file_coo) (c_cols ex_file_coo) (c_elems ex_file_coo) /\ c_nnz ex_file_coo * sz ex_RT < 256 /\ c_elems ex_file_coo <> [] /\
  (let B := Coo 3 200 (replicate 128 (Elem 2 5 (7, 8) 0)) in
   @fits ex_W16 (nat * nat) B /\ 256 <= c_nnz B * sz ex_RT).
Proof.
  split; [split; [lia|done]|]. split; [exact ex_storable|]. split; [exact ex_fits|].
  split; [unfold in_range; cbn; repeat (constructor; [cbn; lia|]); constructor|]. split; [cbn; lia|]. split; [done|].
  split; [|cbn; lia]. split; [cbn; lia|]. split; [cbn; lia|]. split; [cbn; lia|]. apply Forall_replicate. cbn. lia.
Qed.

(** ** C55 *)
(** as written, the three-array reader closes the column file twice: it never returns from
    three existing files, and when the row and column files are complete this is why *)
Theorem C55_closed_twice_refuted {T} `{Widths} (RT : repr T) (k : nat) (fr fc fv : bytes) :
  0 < sz RT -> exists u, read_bin_COO3 RT k false (Some fr) (Some fc) (Some fv) = Undef u.
Proof.
  intros Hs. unfold read_bin_COO3, get_file_size. cbn [mbind outcome_bind]. rewrite div_ok by done. cbn [mbind outcome_bind].
  assert (Hmax : forall a n, (exists m, max_loop a n = Ok m) \/ (exists u, max_loop a n = Undef u)).
  { intros a n. unfold max_loop, for_range. rewrite Nat.sub_0_r.
    match goal with |- context [for_n n 0 ?bd 0] => enough (G : forall lo m, (exists m', for_n n lo bd m = Ok m') \/ (exists u, for_n n lo bd m = Undef u)) by apply G end.
    induction n as [|n IH]; intros lo m; cbn [for_n]; [eauto|].
    unfold aget. destruct (a !! lo) as [[v|]|]; cbn [mbind outcome_bind]; eauto. }
  destruct (fread_items (index_repr k) _ fr) as [ai f1].
  match goal with |- context [max_loop ?a ?n] => destruct (Hmax a n) as [[m ->]|[u ->]] end; cbn [mbind outcome_bind]; [|eauto].
  destruct (fread_items (index_repr k) _ fc) as [aj f2].
  match goal with |- context [max_loop ?a ?n] => destruct (Hmax a n) as [[m2 ->]|[u ->]] end; cbn [mbind outcome_bind fclose]; [|eauto].
  destruct (fread_items RT _ fv) as [av f3]. cbn. eauto.
Qed.
Theorem C55_written_files_refuted {T} `{Widths} (RT : repr T) (k : nat) (B : coo T) :
  index_bytes k -> storable RT -> fits B -> c_nnz B * sz RT < itW ->
  let '(fr, fc, fv) := write_bin_COO3 RT k B in
  read_bin_COO3 RT k false (Some fr) (Some fc) (Some fv) = Undef BadFree.
Proof.
  intros Hk HR HB Hsz. pose proof HB as (Hr & Hc & Hn & HF). pose proof HR as [Hs0 _].
  unfold write_bin_COO3. cbv iota beta. unfold read_bin_COO3, get_file_size. cbn [mbind outcome_bind].
  assert (Hvl : length (fwrite RT (val <$> c_elems B)) = c_nnz B * sz RT) by (rewrite fwrite_length, fmap_length; [done|intros; apply HR]).
  rewrite Hvl, wrap_small by done. rewrite div_ok by done. cbn [mbind outcome_bind]. rewrite Nat.div_mul by lia.
  pose proof (fread_items_fwrite (index_repr k) (row <$> c_elems B) [] (fits_rows k Hk B HB)) as H1.
  rewrite app_nil_r, fmap_length in H1. fold (c_nnz B) in H1. rewrite H1, fmap_length. clear H1.
  pose proof (fread_items_fwrite (index_repr k) (col <$> c_elems B) [] (fits_cols k Hk B HB)) as H2.
  rewrite app_nil_r, fmap_length in H2. fold (c_nnz B) in H2. rewrite H2, fmap_length. clear H2.
  fold (c_nnz B). replace (c_nnz B - c_nnz B) with 0 by lia. unfold new_arr. cbn [replicate]. rewrite !app_nil_r.
  destruct (max_loop_spec (row <$> c_elems B)) as (mr & Hmr & _). rewrite fmap_length in Hmr. fold (c_nnz B) in Hmr.
  destruct (max_loop_spec (col <$> c_elems B)) as (mc & Hmc & _). rewrite fmap_length in Hmc. fold (c_nnz B) in Hmc.
  rewrite Hmr. cbn [mbind outcome_bind]. rewrite Hmc. cbn [mbind outcome_bind fclose].
  destruct (fread_items RT _ _) as [av f3]. done.
Qed.
Example C55_ex : @index_bytes ex_W16 1 /\ storable ex_RT /\ @fits ex_W16 (nat * nat) ex_file_coo /\ c_nnz ex_file_coo * sz ex_RT < 256.
Proof. split; [split; [lia|done]|]. split; [exact ex_storable|]. split; [exact ex_fits|]. cbn. lia. Qed.

(** ** C58 *)
Theorem C58_array_roundtrip {T} (RT : repr T) (l : list T) :
  storable RT -> exists f, write_bin_array RT (full l) (length l) = Ok f /\ read_bin_array RT (Some f) = Ok (0%Z, length l, full l).
Proof.
  intros HR. pose proof HR as [Hs _]. exists (fwrite RT l). split.
  - unfold write_bin_array.
    match goal with |- context [for_range 0 _ ?bd ?i] => assert (Hw : for_range 0 (length l) bd i = Ok (take (length l) l)) end.
    { apply wp_eq. apply (wp_for_range (fun i l' => l' = take i l)); [lia|done|]. intros i l' Hi ->.
      destruct (lookup_lt_is_Some_2 l i) as [v Hv]; [lia|]. rewrite aget_full, (lget_some _ _ _ Hv). cbn [mbind outcome_bind wp].
      by rewrite (take_S_r _ _ _ Hv). }
    rewrite Hw. cbn [mbind outcome_bind]. by rewrite firstn_all.
  - unfold read_bin_array, get_file_size. cbn [mbind outcome_bind]. rewrite div_ok by done. cbn [mbind outcome_bind].
    rewrite fwrite_length, Nat.div_mul by (try lia; intros; apply HR).
    pose proof (fread_items_fwrite RT l [] (faithful_RT RT HR _)) as H1. rewrite app_nil_r in H1. rewrite H1.
    rewrite Nat.ltb_irrefl. replace (length l - length l) with 0 by lia. unfold new_arr. cbn [replicate]. by rewrite app_nil_r.
Qed.
(** any other file: the whole items in it, with code 0, a trailing part of an item being
    ignored (-3 is never returned; -2 neither, an unreadable file stops the program) *)
Theorem C58_any_file {T} (RT : repr T) (f : bytes) :
  storable RT -> exists l, read_bin_array RT (Some f) = Ok (0%Z, length l, full l) /\ length l = length f / sz RT /\
    forall i, i < length l -> l !! i = Some (dec RT (take (sz RT) (drop (i * sz RT) f))).
Proof.
  intros HR. pose proof HR as [Hs _]. unfold read_bin_array, get_file_size. cbn [mbind outcome_bind]. rewrite div_ok by done. cbn [mbind outcome_bind].
  destruct (fread_items_spec RT (length f / sz RT) f Hs) as (l & f' & -> & Hl & Hi & _). rewrite Nat.min_id in Hl.
  exists l. rewrite <- Hl, Nat.ltb_irrefl. replace (length l - length l) with 0 by lia. unfold new_arr. cbn [replicate]. by rewrite app_nil_r.
Qed.
Theorem C58_missing_file {T} (RT : repr T) : read_bin_array RT None = Abort.
Proof. done. Qed.
Example C58_ex : storable ex_RT /\ read_bin_array ex_RT (Some [1; 2; 3; 4; 5]) = Ok (0%Z, 2, full [(1, 2); (3, 4)]).
Proof. split; [exact ex_storable|]. vm_compute. done. Qed.
