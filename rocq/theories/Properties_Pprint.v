(** Properties_Pprint.v: C93, the tool that prints binary files (src/tools/pprint.c).
    [index_bytes], [storable], [fits]: see Properties_Io.v; [record_fits]: block number and
    indices are values of the index type. *)
From Verif Require Import PprintProof.

(** one number per line, its decimal digits at the right end of 12 characters *)
Definition twelve (n : nat) : bytes := let digits := print_dec (N.of_nat n) in replicate (12 - length digits) 32 ++ digits.
Definition number_lines (ns : list nat) : bytes := concat ((fun n => twelve n ++ [10]) <$> ns).
Definition line_between : bytes := str "---------------------------------------" ++ [10].
Definition blocks_notice : bytes := str "Assuming input is in blocked format." ++ [10].

Section C93.
  Context {T : Type} `{Widths} (RT : repr T) (k : nat) (print_f print_e : T -> bytes) (Hk : index_bytes k) (HR : storable RT).
  Implicit Types (B : coo T) (F : fs) (name : bytes).
  Notation pprint := (pprint RT k print_f print_e).
  Notation RI := (index_repr k).

  Definition triples_text (rows cols nnz : nat) (rs cs : list nat) (vs : list T) : bytes :=
    print_dec (N.of_nat rows) ++ str " rows x " ++ print_dec (N.of_nat cols) ++ str " columns, " ++ print_dec (N.of_nat nnz) ++ str " non-zeros" ++ [10] ++
    number_lines rs ++ line_between ++ number_lines cs ++ line_between ++ concat ((fun v => print_f v ++ [10]) <$> vs).

  Lemma pprint_triples_mode F name f : F !! name = Some f ->
    pprint [name; str "triples"] F = (out ← pprint_triples RT k print_f f; Ok (0%Z, out)).
  Proof using Type. intros Hf. unfold Pprint.pprint. rewrite Hf. done. Qed.

  Lemma triples_after B rest : fits B ->
    pprint_triples RT k print_f (enc RI (c_rows B) ++ enc RI (c_cols B) ++ enc RI (c_nnz B) ++ rest) =
      (let out := print_dec (N.of_nat (c_rows B)) ++ str " rows x " ++ print_dec (N.of_nat (c_cols B)) ++ str " columns, " ++
         print_dec (N.of_nat (c_nnz B)) ++ str " non-zeros" ++ [10] in
       '(n, f, out) ← show_items RI print_12 (c_nnz B) None rest out;
       '(n, f, out) ← show_items RI print_12 (c_nnz B) n f (out ++ separator);
       '(_, _, out) ← show_items RT print_f (c_nnz B) None f (out ++ separator);
       Ok out).
  Proof using Hk.
    intros (H1 & H2 & H3 & _). unfold pprint_triples.
    do 3 rewrite (fread1_enc RI) by (apply (faithful_RI k Hk); by intros ? ->). done.
  Qed.
  (** a file written by write_bin_COO, in the mode for it: everything, in the order of the file *)
  Theorem C93_triples B F name : fits B -> F !! name = Some (write_bin_COO RT k B) ->
    pprint [name; str "triples"] F =
      Ok (0%Z, triples_text (c_rows B) (c_cols B) (c_nnz B) (row <$> c_elems B) (col <$> c_elems B) (val <$> c_elems B)).
  Proof using Hk HR.
    intros HB Hf. rewrite (pprint_triples_mode _ _ _ Hf). unfold write_bin_COO. rewrite triples_after by done. cbv zeta.
    pose proof (fits_rows k Hk B HB) as F1. pose proof (fits_cols k Hk B HB) as F2.
    rewrite (show_items_n RI print_12 _ _ _ _ _ (fmap_length _ _) F1). cbn [mbind outcome_bind].
    rewrite (show_items_n RI print_12 _ _ _ _ _ (fmap_length _ _) F2). cbn [mbind outcome_bind].
    rewrite <- (app_nil_r (fwrite RT _)).
    rewrite (show_items_n RT print_f _ (val <$> c_elems B) _ _ _ (fmap_length _ _) (faithful_RT RT HR _)). cbn [mbind outcome_bind].
    f_equal. f_equal. unfold triples_text, number_lines. by rewrite <- !app_assoc.
  Qed.
  (** ... with its end cut off after j whole values, at least one: the last of them is printed
      again for every value that is missing, and the exit code is still 0 *)
  Theorem C93_triples_cut_silent B F name j v : fits B -> j < c_nnz B -> (val <$> c_elems B) !! j = Some v ->
    F !! name = Some (take (3 * k + 2 * c_nnz B * k + S j * sz RT) (write_bin_COO RT k B)) ->
    pprint [name; str "triples"] F =
      Ok (0%Z, triples_text (c_rows B) (c_cols B) (c_nnz B) (row <$> c_elems B) (col <$> c_elems B)
                 (take (S j) (val <$> c_elems B) ++ replicate (c_nnz B - S j) v)).
  Proof using Hk HR.
    intros HB Hj Hv Hf. rewrite (pprint_triples_mode _ _ _ Hf). clear Hf.
    pose proof (fits_rows k Hk B HB) as F1. pose proof (fits_cols k Hk B HB) as F2. pose proof (faithful_RT RT HR) as F3.
    assert (Hcut : take (3 * k + 2 * c_nnz B * k + S j * sz RT) (write_bin_COO RT k B) =
      enc RI (c_rows B) ++ enc RI (c_cols B) ++ enc RI (c_nnz B) ++ fwrite RI (row <$> c_elems B) ++ fwrite RI (col <$> c_elems B) ++
      fwrite RT (take (S j) (val <$> c_elems B)) ++ []).
    { assert (L1 : forall n, length (enc RI n) = k) by (intros n; apply le_bytes_length).
      assert (L2 : length (fwrite RI (row <$> c_elems B)) = c_nnz B * k).
      { rewrite (fwrite_length RI) by (intros n Hn; apply L1). by rewrite fmap_length. }
      assert (L3 : length (fwrite RI (col <$> c_elems B)) = c_nnz B * k).
      { rewrite (fwrite_length RI) by (intros n Hn; apply L1). by rewrite fmap_length. }
      unfold write_bin_COO. rewrite <- (take_drop (S j) (val <$> c_elems B)) at 1. rewrite (fwrite_app RT), app_nil_r.
      rewrite !app_assoc, <- (app_assoc _ (fwrite RT (take _ _))) .
      set (V := fwrite RT (take (S j) (val <$> c_elems B))).
      assert (L4 : length V = S j * sz RT).
      { unfold V. rewrite (fwrite_length RT) by (intros w _; apply HR). rewrite take_length, fmap_length. unfold c_nnz in Hj. f_equal. lia. }
      rewrite app_assoc, take_app_alt; [done|]. rewrite !app_length, !L1, L2, L3, L4. lia. }
    rewrite Hcut, triples_after by done. cbv zeta.
    rewrite (show_items_n RI print_12 _ _ _ _ _ (fmap_length _ _) F1). cbn [mbind outcome_bind].
    rewrite (show_items_n RI print_12 _ _ _ _ _ (fmap_length _ _) F2). cbn [mbind outcome_bind].
    replace (show_items RT print_f (c_nnz B)) with (show_items RT print_f (S j + (c_nnz B - S j))) by (f_equal; lia).
    rewrite show_items_app.
    rewrite (show_items_n RT print_f (S j) (take (S j) (val <$> c_elems B))); [|rewrite take_length, fmap_length; unfold c_nnz in Hj; lia|apply F3].
    cbn [mbind outcome_bind]. erewrite take_S_r at 1 by exact Hv. rewrite last_snoc.
    rewrite show_items_end by (exact (proj1 HR)). cbn [mbind outcome_bind].
    f_equal. f_equal. unfold triples_text, number_lines. rewrite fmap_app, concat_app, fmap_replicate. by rewrite <- !app_assoc.
  Qed.
  (** ... anywhere else: what is printed is indeterminate *)
  Theorem C93_triples_cut_undefined B F name m : fits B -> 0 < c_nnz B -> m < length (write_bin_COO RT k B) ->
    (forall j, m <> 3 * k + 2 * c_nnz B * k + S j * sz RT) ->
    F !! name = Some (take m (write_bin_COO RT k B)) ->
    pprint [name; str "triples"] F = Undef Uninit.
  Proof using Hk HR.
    intros HB Hn Hm Hj Hf. rewrite (pprint_triples_mode _ _ _ Hf). clear Hf. destruct HR as [Hs HRe].
    assert (L1 : forall n, length (enc RI n) = k) by (intros n; apply le_bytes_length).
    assert (Hlen : length (write_bin_COO RT k B) = 3 * k + 2 * c_nnz B * k + c_nnz B * sz RT).
    { unfold write_bin_COO. rewrite !app_length, !L1, !(fwrite_length RI), (fwrite_length RT) by (intros; first [apply HRe | apply L1]).
      rewrite !fmap_length. fold (c_nnz B). cbn [sz index_repr]. lia. }
    rewrite Hlen in Hm.
    destruct (decide (m < 3 * k)) as [Hh|Hh].
    { unfold pprint_triples. set (f := take m (write_bin_COO RT k B)).
      assert (Lf : length f < 3 * k) by (unfold f; rewrite take_length; lia). clearbody f.
      destruct (decide (k <= length f)).
      2: { rewrite (fread1_short RI) by (cbn; lia). destruct (fread1 RI None []) as [[? [?|]] ?], (fread1 RI None _) as [[? [?|]] ?], f; done. }
      rewrite (fread1_long RI) by done.
      set (f' := drop (sz RI) f). assert (length f' < 2 * k) by (unfold f'; rewrite drop_length; cbn; lia). clearbody f'.
      destruct (decide (k <= length f')).
      2: { rewrite (fread1_short RI) by (cbn; lia). destruct (fread1 RI None []) as [[? [?|]] ?], f'; done. }
      rewrite (fread1_long RI) by done.
      rewrite (fread1_short RI None (drop _ f')) by (rewrite drop_length; cbn; lia). destruct (drop _ f'); done. }
    assert (Hcut : exists rest, take m (write_bin_COO RT k B) = enc RI (c_rows B) ++ enc RI (c_cols B) ++ enc RI (c_nnz B) ++ rest /\ length rest = m - 3 * k).
    { eexists. split.
      - unfold write_bin_COO.
        rewrite (app_assoc (enc RI (c_cols B))), (app_assoc (enc RI (c_rows B))).
        rewrite take_app_ge by (rewrite !app_length, !L1; lia). rewrite <- !app_assoc. reflexivity.
      - rewrite take_length, !app_length, !L1, !(fwrite_length RI), (fwrite_length RT) by (intros; first [apply HRe | apply L1]).
        rewrite !fmap_length. fold (c_nnz B). cbn [sz index_repr]. lia. }
    destruct Hcut as (rest & -> & Hrest). rewrite triples_after by done. cbv zeta.
    match goal with |- context [show_items RI print_12 ?n None ?f ?o] => destruct (show_items_cases RI print_12 n None f o) as [(b1 & o1 & ->)| ->] end; [|done].
    cbn [mbind outcome_bind].
    match goal with |- context [show_items RI print_12 ?n b1 ?f ?o] => destruct (show_items_cases RI print_12 n b1 f o) as [(b2 & o2 & ->)| ->] end; [|done].
    cbn [mbind outcome_bind]. rewrite drop_drop. set (f := drop _ rest).
    assert (Lf : length f = m - 3 * k - 2 * (c_nnz B * k)) by (unfold f; rewrite drop_length, Hrest; cbn; lia). clearbody f.
    destruct (decide (length f = 0)) as [E|E].
    { rewrite show_items_bad; [done|done|lia|by right]. }
    rewrite show_items_partial; [done|done|nia|].
    intros Hmod. apply Nat.mod_divides in Hmod as [[|q] Hq]; [lia| |lia]. apply (Hj q). lia.
  Qed.

  (** ** the blocked format: with the word 'blocks', or by default *)
  Definition blocks_args (args : list bytes) : Prop := forall m, args = [m] -> m <> str "triples" /\ m <> str "vector".
  Definition notice_of (args : list bytes) : bytes := if decide (args = [str "blocks"]) then [] else blocks_notice.
  Lemma str_eqb_neq (a b : bytes) : a <> b -> str_eqb a b = false.
  Proof using Type. clear. intros Hne. unfold str_eqb. by rewrite decide_False. Qed.
  Lemma str_eqb_refl (a : bytes) : str_eqb a a = true.
  Proof using Type. clear. unfold str_eqb. by rewrite decide_True. Qed.
  Lemma pprint_blocks_mode F name f args : F !! name = Some f -> blocks_args args ->
    pprint (name :: args) F = (out ← pprint_blocks RT k print_e f (notice_of args); Ok (0%Z, out)).
  Proof using Type.
    intros Hf Ha. unfold Pprint.pprint. rewrite Hf. unfold notice_of, blocks_args in *. fold blocks_notice.
    destruct args as [|m [|m' args]]; [by rewrite decide_False| |by rewrite decide_False].
    destruct (Ha m eq_refl) as [H1 H2]. rewrite (str_eqb_neq m (str "triples")), (str_eqb_neq m (str "vector")) by done.
    destruct (decide (m = str "blocks")) as [-> | Hne].
    - by rewrite str_eqb_refl, decide_True.
    - rewrite str_eqb_neq by done. rewrite decide_False; [done|]. by intros [= ->].
  Qed.
  Lemma blocks_after r c n a1 a2 a3 rest out : r < itW -> c < itW -> n < itW -> a1 < itW -> a2 < itW -> a3 < itW ->
    pprint_blocks RT k print_e (enc RI r ++ enc RI c ++ enc RI n ++ enc RI a1 ++ enc RI a2 ++ enc RI a3 ++ rest) out =
      ('(_, _, _, out) ← show_records RT k print_e n (Some a3) None rest out; Ok out).
  Proof using Hk.
    intros. unfold pprint_blocks. do 6 rewrite (fread1_enc RI) by (apply (faithful_RI k Hk); by intros ? ->). done.
  Qed.
  Definition record_lines (E : list (elem T)) : bytes := 
    concat ((fun e => twelve (blk e) ++ [9] ++ twelve (row e) ++ [9] ++ twelve (col e) ++ [9] ++ print_e (val e) ++ [10]) <$> E).

  (** a file written by write_bin_blocked: one line for every record *)
  Theorem C93_blocks B nbr nbc nz F name args :
    c_rows B < itW -> c_cols B < itW -> c_nnz B < itW -> nbr < itW -> nbc < itW -> nz < itW -> Forall record_fits (c_elems B) ->
    F !! name = Some (write_bin_blocked RT k B nbr nbc nz) -> blocks_args args ->
    pprint (name :: args) F = Ok (0%Z, notice_of args ++ record_lines (c_elems B)).
  Proof using Hk HR.
    intros H1 H2 H3 H4 H5 H6 HE Hf Ha. rewrite (pprint_blocks_mode _ _ _ _ Hf Ha).
    unfold write_bin_blocked. rewrite blocks_after by done.
    rewrite <- (app_nil_r (concat _)). unfold c_nnz. rewrite (show_records_all RT k print_e Hk HR) by done. done.
  Qed.
  (** ... cut off after whole records, at least one: the missing records are printed with
      the last column read in all three places, and the exit code is still 0 *)
  Theorem C93_blocks_cut_silent B nbr nbc nz F name args j e :
    c_rows B < itW -> c_cols B < itW -> c_nnz B < itW -> nbr < itW -> nbc < itW -> nz < itW -> Forall record_fits (c_elems B) ->
    c_elems B !! j = Some e ->
    F !! name = Some (take (6 * k + S j * record_size RT k) (write_bin_blocked RT k B nbr nbc nz)) -> blocks_args args ->
    pprint (name :: args) F = Ok (0%Z, notice_of args ++ record_lines (take (S j) (c_elems B) ++ replicate (c_nnz B - S j) (Elem (col e) (col e) (val e) (col e)))).
  Proof using Hk HR.
    intros H1 H2 H3 H4 H5 H6 HE Hj Hf Ha. rewrite (pprint_blocks_mode _ _ _ _ Hf Ha). clear Hf.
    assert (L1 : forall n, length (enc RI n) = k) by (intros n; apply le_bytes_length).
    assert (Hlt : j < c_nnz B) by (by eapply lookup_lt_Some).
    assert (Hcut : take (6 * k + S j * record_size RT k) (write_bin_blocked RT k B nbr nbc nz) =
      enc RI (c_rows B) ++ enc RI (c_cols B) ++ enc RI (c_nnz B) ++ enc RI nbr ++ enc RI nbc ++ enc RI nz ++ concat (enc_record RT k <$> take (S j) (c_elems B)) ++ []).
    { unfold write_bin_blocked. rewrite <- (take_drop (S j) (c_elems B)) at 1. rewrite fmap_app, concat_app, app_nil_r.
      assert (L2 : forall E, length (concat (enc_record RT k <$> E)) = length E * record_size RT k).
      { induction E as [|e' E IH]; [done|]. cbn [fmap list_fmap concat length]. rewrite app_length, IH, (enc_record_length RT k HR). lia. }
      rewrite !app_assoc. rewrite take_app_alt; [done|]. rewrite !app_length, !L1, L2, take_length. fold (c_nnz B).
      rewrite Nat.min_l by lia. lia. }
    rewrite Hcut, blocks_after by done. clear Hcut.
    replace (c_nnz B) with (S j + (c_nnz B - S j)) at 1 by lia. rewrite show_records_app.
    assert (Hlen : length (take (S j) (c_elems B)) = S j) by (rewrite take_length; unfold c_nnz in Hlt; lia).
    rewrite <- Hlen at 1. rewrite (show_records_all RT k print_e Hk HR) by (by apply Forall_take). cbn [mbind outcome_bind].
    erewrite take_S_r at 1 2 by exact Hj. rewrite !last_snoc. rewrite (show_records_end RT k print_e Hk HR). cbn [mbind outcome_bind].
    f_equal. f_equal. rewrite <- app_assoc. f_equal. unfold record_lines. by rewrite fmap_app, concat_app, fmap_replicate.
  Qed.
  (** ... before the end of the first record: indeterminate *)
  Theorem C93_blocks_cut_undefined B nbr nbc nz F name args m :
    c_rows B < itW -> c_cols B < itW -> c_nnz B < itW -> nbr < itW -> nbc < itW -> nz < itW -> 0 < c_nnz B ->
    m < 6 * k + record_size RT k ->
    F !! name = Some (take m (write_bin_blocked RT k B nbr nbc nz)) -> blocks_args args ->
    pprint (name :: args) F = Undef Uninit.
  Proof using Hk HR.
    intros H1 H2 H3 H4 H5 H6 Hn Hm Hf Ha. rewrite (pprint_blocks_mode _ _ _ _ Hf Ha). clear Hf.
    assert (L1 : forall n, length (enc RI n) = k) by (intros n; apply le_bytes_length).
    assert (Hsk : forall b f, exists c b', fread1 RI b f = (c, b', drop k f)).
    { intros b f. destruct (decide (k <= length f)).
      - rewrite (fread1_long RI) by done. by do 2 eexists.
      - rewrite (fread1_short RI) by (cbn; lia). do 2 eexists. rewrite drop_ge by lia. done. }
    unfold pprint_blocks. set (f := take m _).
    destruct (Hsk None f) as (c1 & b1 & ->). destruct (Hsk None (drop k f)) as (c2 & b2 & ->).
    destruct (fread1 RI None (drop k (drop k f))) as [[c3 nnz] f3] eqn:E3.
    destruct (Hsk None f3) as (c4 & b4 & ->). destruct (Hsk b4 (drop k f3)) as (c5 & b5 & ->). destruct (Hsk b5 (drop k (drop k f3))) as (c6 & b6 & ->).
    assert (Hf3 : f3 = drop (3 * k) f /\ (nnz = None \/ nnz = Some (c_nnz B))).
    { destruct (decide (3 * k <= m)) as [Hge|Hlt].
      - assert (Ef : f = enc RI (c_rows B) ++ enc RI (c_cols B) ++ enc RI (c_nnz B) ++ drop (3 * k) f).
        { transitivity (take (3 * k) f ++ drop (3 * k) f); [by rewrite take_drop|].
          rewrite !app_assoc. f_equal. unfold f. rewrite take_take, Nat.min_l by lia. unfold write_bin_blocked.
          rewrite (app_assoc (enc RI (c_cols B))), (app_assoc (enc RI (c_rows B))), take_app_alt by (rewrite !app_length, !L1; lia).
          by rewrite <- !app_assoc. }
        rewrite drop_drop, Ef in E3.
        rewrite app_assoc, drop_app_alt in E3 by (rewrite !app_length, !L1; lia).
        rewrite (fread1_enc RI) in E3 by (apply (faithful_RI k Hk); by intros ? ->). injection E3 as <- <- <-. split; [done|by right].
      - assert (Lf : length f < 3 * k) by (unfold f; rewrite take_length; lia).
        rewrite (fread1_short RI) in E3 by (rewrite !drop_length; cbn; lia). injection E3 as <- <- <-.
        split; [by rewrite drop_ge by lia|left]. destruct (drop k (drop k f)); done. }
    destruct Hf3 as [-> [-> | ->]]; [done|]. cbn [use mbind outcome_bind].
    fold (show_records RT k print_e (c_nnz B) b6 None (drop k (drop k (drop k (drop (3 * k) f)))) (notice_of args)).
    destruct (c_nnz B) as [|n] eqn:En; [lia|]. rewrite show_records_S, (show_record_bad RT k print_e Hk HR); [done|].
    rewrite !drop_length. unfold f. rewrite take_length. destruct Hk as [Hk1 _]. unfold record_size in *. lia.
  Qed.

  (** ** a file of indices *)
  Theorem C93_vector ns tail F name : Forall (fun n => n < itW) ns -> length tail < k -> F !! name = Some (fwrite RI ns ++ tail) ->
    pprint [name; str "vector"] F = Ok (0%Z, number_lines ns).
  Proof using Hk.
    intros Hns Ht Hf. unfold Pprint.pprint. rewrite Hf. change (str_eqb (str "vector") (str "triples")) with false.
    change (str_eqb (str "vector") (str "vector")) with true. cbn [mbind outcome_bind]. unfold pprint_vector.
    assert (Hgo : forall fuel out, length ns + 2 <= fuel ->
      while_ fuel (fun '(f, _, stop) => Ok (negb stop))
        (fun '(f, out, _) => match fread1 RI None f with
           | (O, _, f) => Ok (f, out, true)
           | (_, n, f) => n ← use n; Ok (f, out ++ print_12 n ++ [10], false)
           end) (fwrite RI ns ++ tail, out, false) = Ok ([], out ++ number_lines ns, true)).
    { clear Hf. induction Hns as [|n ns Hn Hns IH]; intros fuel out Hfuel.
      - destruct fuel as [|[|fuel]]; [cbn in Hfuel; lia..|]. cbn [while_ negb mbind outcome_bind].
        change (fwrite RI [] ++ tail) with tail.
        rewrite (fread1_short RI) by done. cbn [mbind outcome_bind negb]. unfold number_lines. cbn. by rewrite app_nil_r.
      - destruct fuel as [|fuel]; [cbn in Hfuel; lia|]. cbn [while_ negb mbind outcome_bind].
        rewrite (fwrite_cons RI), <- app_assoc, (fread1_enc RI) by (apply (faithful_RI k Hk); by intros ? ->). cbn [use mbind outcome_bind].
        rewrite IH by (cbn in Hfuel; lia). unfold number_lines. cbn [fmap list_fmap concat]. by rewrite <- !app_assoc. }
    rewrite Hgo; [done|]. rewrite app_length, (fwrite_length RI) by (intros; apply le_bytes_length). destruct Hk as [Hk1 _]. cbn [sz index_repr]. nia.
  Qed.
  (** the numbers can be read back from what is printed: its words are their decimal digits *)
  Theorem C93_numbers_readable ns : words (number_lines ns) = (fun n => print_dec (N.of_nat n)) <$> ns.
  Proof using Type.
    clear. induction ns as [|n ns IH]; [done|]. unfold number_lines. cbn [fmap list_fmap concat]. unfold twelve.
    destruct (print_dec_spec (N.of_nat n)) as (Hd & _ & Hne).
    rewrite <- !app_assoc.
    assert (Hsp : spaces (replicate (12 - length (print_dec (N.of_nat n))) 32)) by (by apply Forall_replicate).
    rewrite <- words_skip, (skip_spaces_app _ _ Hsp), words_skip. rewrite words_cons; [|eapply Forall_impl; [exact Hd|]; intros c; apply digit_not_space|done|done].
    f_equal. rewrite <- words_skip. rewrite (skip_spaces_app [10]) by (by repeat constructor). rewrite words_skip. exact IH.
  Qed.

  (** a file that cannot be opened: undefined, whatever the mode *)
  Theorem C93_missing F name args : F !! name = None -> pprint (name :: args) F = Undef BadFree.
  Proof using Type. intros Hf. unfold Pprint.pprint. by rewrite Hf. Qed.
  (** no file is ever refused: with any arguments and any file the tool exits with 0 or is
      undefined; without arguments it prints nothing and exits with 1 *)
  Theorem C93_never_refuses F args :
    match args with
    | [] => pprint args F = Ok (1%Z, [])
    | _ => (exists out, pprint args F = Ok (0%Z, out)) \/ exists u, pprint args F = Undef u
    end.
  Proof using Hk.
    destruct args as [|name args]; [done|]. destruct (F !! name) as [f|] eqn:Hf; [|right; eexists; by apply C93_missing].
    destruct (decide (args = [str "triples"])) as [-> | N1].
    { rewrite (pprint_triples_mode _ _ _ Hf). unfold pprint_triples.
      destruct (fread1 RI None f) as [[? r] f1]. destruct (fread1 RI None f1) as [[? c] f2]. destruct (fread1 RI None f2) as [[? nn] f3].
      destruct r as [r|], c as [c|], nn as [nn|]; cbn [use mbind outcome_bind]; eauto.
      repeat (match goal with |- context [show_items ?R ?p ?n ?b ?f ?o] => destruct (show_items_cases R p n b f o) as [(? & ? & ->)| ->] end; cbn [mbind outcome_bind]; [|eauto]).
      eauto. }
    destruct (decide (args = [str "vector"])) as [-> | N2].
    { left. rewrite <- (take_drop (k * (length f / k)) f) in Hf. destruct Hk as [Hk1 Hk2].
      unfold Pprint.pprint. rewrite Hf. rewrite take_drop. clear Hf.
      change (str_eqb (str "vector") (str "triples")) with false. change (str_eqb (str "vector") (str "vector")) with true. cbn [mbind outcome_bind].
      unfold pprint_vector.
      assert (Hgo : forall fuel f out, length f + 2 <= fuel -> exists r,
        while_ fuel (fun '(f, _, stop) => Ok (negb stop))
          (fun '(f, out, _) => match fread1 RI None f with
             | (O, _, f) => Ok (f, out, true)
             | (_, n, f) => n ← use n; Ok (f, out ++ print_12 n ++ [10], false)
             end) (f, out, false) = Ok r).
      { clear -Hk1. induction fuel as [|fuel IH]; intros f out Hl; [lia|]. cbn [while_ negb mbind outcome_bind].
        destruct (decide (k <= length f)).
        - rewrite (fread1_long RI) by done. cbn [use mbind outcome_bind]. apply IH. rewrite drop_length. cbn [sz index_repr]. lia.
        - rewrite (fread1_short RI) by (cbn; lia). destruct fuel as [|fuel]; [lia|]. cbn. eauto. }
      destruct (Hgo (S (S (length f))) f []) as [[[? out] ?] ->]; [lia|]. eauto. }
    assert (Ha : blocks_args args) by (intros m ->; split; congruence).
    rewrite (pprint_blocks_mode _ _ _ _ Hf Ha). unfold pprint_blocks.
    destruct (fread1 RI None f) as [[? ?] f1]. destruct (fread1 RI None f1) as [[? ?] f2]. destruct (fread1 RI None f2) as [[? nn] f3].
    destruct (fread1 RI None f3) as [[? b4] f4]. destruct (fread1 RI b4 f4) as [[? b5] f5]. destruct (fread1 RI b5 f5) as [[? b6] f6].
    destruct nn as [nn|]; cbn [use mbind outcome_bind]; [|eauto].
    destruct (show_records_cases RT k print_e nn b6 None f6 (notice_of args)) as [[[[[? ?] ?] out] Hr]|Hr]; unfold show_records in Hr; rewrite Hr; cbn [mbind outcome_bind]; eauto.
  Qed.
End C93.

(** a file of three elements of a 3 x 200 matrix, whole and cut in the last value but one,
    and the whole file taken for a blocked one *)
Definition ex_print (p : nat * nat) : bytes := print_dec (N.of_nat (fst p)) ++ [44] ++ print_dec (N.of_nat (snd p)).
Definition ex_pp (args : list bytes) (f : bytes) : outcome (Z * bytes) :=
  @pprint (nat * nat) ex_RT 1 ex_print ex_print (str "m.bin" :: args) {[ str "m.bin" := f ]}.
Example C93_ex : @index_bytes ex_W16 1 /\ storable ex_RT /\ @fits ex_W16 (nat * nat) ex_file_coo /\
  let f := write_bin_COO ex_RT 1 ex_file_coo in
  ex_pp [str "triples"] f = Ok (0%Z, str "3 rows x 200 columns, 3 non-zeros" ++ [10] ++
    str "           2" ++ [10] ++ str "           0" ++ [10] ++ str "           2" ++ [10] ++ line_between ++
    str "           5" ++ [10] ++ str "         199" ++ [10] ++ str "           5" ++ [10] ++ line_between ++
    str "7,8" ++ [10] ++ str "1,0" ++ [10] ++ str "255,255" ++ [10]) /\
  (ex_pp [str "triples"] (take 11 f) = Ok (0%Z, triples_text ex_print 3 200 3 [2; 0; 2] [5; 199; 5] [(7, 8); (7, 8); (7, 8)])) /\
  ex_pp [str "triples"] (take 12 f) = Undef Uninit /\
  ex_pp [] f = Undef Uninit /\
  ex_pp [str "vector"] (take 3 f) = Ok (0%Z, number_lines [3; 200; 3]) /\
  (let E := [Elem 2 5 (7, 8) 0; Elem 0 1 (4, 4) 6] in let g := write_bin_blocked ex_RT 1 (Coo 3 200 E) 2 4 2 in
   Forall (@record_fits (nat * nat) ex_W16) E /\
   ex_pp [] g = Ok (0%Z, blocks_notice ++ record_lines ex_print E) /\
   ex_pp [str "blocks"] (take 11 g) = Ok (0%Z, record_lines ex_print [Elem 2 5 (7, 8) 0; Elem 5 5 (7, 8) 5]) /\
   record_lines ex_print (take 1 E) = str "           0" ++ [9] ++ str "           2" ++ [9] ++ str "           5" ++ [9] ++ str "7,8" ++ [10]).
Proof.
  split; [split; [lia|done]|]. split; [apply ex_storable|]. split; [apply ex_fits|]. cbv zeta.
  split; [vm_compute; reflexivity|]. split; [vm_compute; reflexivity|]. split; [vm_compute; reflexivity|]. split; [vm_compute; reflexivity|].
  split; [vm_compute; reflexivity|]. split; [repeat apply Forall_cons_2; [unfold record_fits; cbn; lia..|constructor]|].
  split; [vm_compute; reflexivity|]. split; vm_compute; reflexivity.
Qed.
