(** Properties_Show.v: C101, what the printing functions write. *)
From Verif Require Import Show TextProof CsrProof CgbrProof CsbrProof Cgbr2Proof Cgbr3Proof Properties_Utils Properties_Simple Properties_Blocked Properties_Reuse Properties_Cgbr Properties_Structure Properties_Io.

(** ** Specification *)
Section spec.
  Context {T : Type} (show_value : T -> bytes).
  (** the decimal digits of n *)
  Definition decimal (n : nat) : bytes := print_dec (N.of_nat n).
  (** "(row, col, value)" and a newline *)
  Definition triple_line (e : elem T) : bytes :=
    [40] ++ decimal (row e) ++ [44; 32] ++ decimal (col e) ++ [44; 32] ++ show_value (val e) ++ [41; 10].
  (** "(col,value)" and a tab *)
  Definition pair_item (e : elem T) : bytes := [40] ++ decimal (col e) ++ [44] ++ show_value (val e) ++ [41; 9].
  (** "i: ", the pairs of row i by increasing column (repeated columns in their order in E), a newline *)
  Definition row_line (E : list (elem T)) (i : nat) : bytes :=
    decimal i ++ [58; 32] ++ concat (pair_item <$> isort (bykey col) (bfilter (in_row i) E)) ++ [10].
  (** "br,n:", a tab, the n sizes, each followed by a space, a newline *)
  Definition sizes_line (br : nat) (sizes : list nat) : bytes :=
    decimal br ++ [44] ++ decimal (length sizes) ++ [58; 9] ++ concat ((fun d => decimal d ++ [32]) <$> sizes) ++ [10].
  (** the text of the values contains neither a tab nor a newline *)
  Definition plain_values : Prop := forall v, 9 ∉ show_value v /\ 10 ∉ show_value v.
  (** what a printed matrix lets a reader see of an element *)
  Definition visible (e : elem T) : nat * nat * bytes := (row e, col e, show_value (val e)).
End spec.

(** ** Reading texts back *)
Lemma split_unique (c : nat) (a1 r1 a2 r2 : bytes) : c ∉ a1 -> c ∉ a2 -> a1 ++ c :: r1 = a2 ++ c :: r2 -> a1 = a2 /\ r1 = r2.
Proof.
  revert a2. induction a1 as [|x a1 IH]; intros [|z a2] H1 H2 Heq; cbn [app] in Heq.
  - by injection Heq.
  - injection Heq as -> _. set_solver.
  - injection Heq as -> _. set_solver.
  - injection Heq as -> Heq. apply not_elem_of_cons in H1 as [_ H1], H2 as [_ H2]. destruct (IH a2 H1 H2 Heq) as [-> ->]. done.
Qed.
Lemma decimal_digit n c : c ∈ decimal n -> 48 <= c <= 57.
Proof.
  intros Hc. pose proof (print_dec_spec (N.of_nat n)) as (Hd & _ & _). unfold digits in Hd. rewrite Forall_forall in Hd.
  specialize (Hd c Hc). unfold is_digit in Hd. apply andb_true_iff in Hd as [?%Nat.leb_le ?%Nat.leb_le]. lia.
Qed.
Lemma decimal_inj n m : decimal n = decimal m -> n = m.
Proof.
  intros Heq. pose proof (print_dec_spec (N.of_nat n)) as (_ & Hn & _). pose proof (print_dec_spec (N.of_nat m)) as (_ & Hm & _).
  unfold decimal in Heq. rewrite Heq, Hm in Hn. lia.
Qed.
Lemma decimal_not n c : c < 48 \/ 57 < c -> c ∉ decimal n.
Proof. intros Hc Hin%decimal_digit. lia. Qed.
Lemma decimal_cons n : exists c l, decimal n = c :: l.
Proof. pose proof (print_dec_spec (N.of_nat n)) as (_ & _ & Hne). unfold decimal. destruct (print_dec (N.of_nat n)); [done|eauto]. Qed.

(** loops that append to the text *)
Lemma text_loop (line : nat -> bytes) n : forall lo (body : nat -> bytes -> outcome bytes) out,
  (forall i out, lo <= i < lo + n -> body i out = Ok (out ++ line i)) ->
  for_range lo (lo + n) body out = Ok (out ++ concat (line <$> seq lo n)).
Proof.
  induction n as [|n IH]; intros lo body out Hb.
  - rewrite for_range_empty by lia. cbn. by rewrite app_nil_r.
  - rewrite for_range_step by lia. rewrite Hb by lia. cbn [mbind outcome_bind].
    replace (lo + S n) with (S lo + n) by lia. rewrite IH by (intros i o Hi; apply Hb; lia). cbn. by rewrite app_assoc.
Qed.
Lemma text_loop0 (line : nat -> bytes) n (body : nat -> bytes -> outcome bytes) out :
  (forall i out, i < n -> body i out = Ok (out ++ line i)) ->
  for_range 0 n body out = Ok (out ++ concat (line <$> seq 0 n)).
Proof. intros Hb. apply (text_loop line n 0). intros i o Hi. apply Hb. lia. Qed.
Lemma seq_lines {A} (f : A -> bytes) (l : list A) (g : nat -> bytes) lo :
  (forall i a, l !! i = Some a -> g (lo + i) = f a) -> g <$> seq lo (length l) = f <$> l.
Proof.
  revert lo. induction l as [|a l IH]; intros lo Hg; [done|]. cbn. f_equal.
  - rewrite <- (Nat.add_0_r lo). by apply Hg.
  - apply IH. intros i b Hi. replace (S lo + i) with (lo + S i) by lia. by apply Hg.
Qed.

Section C101.
  Context {T : Type} `{Scalar T} `{Widths}.
  Implicit Types (B : coo T) (E : list (elem T)) (roff coff : list nat).
  Variable show_value : T -> bytes.

  (** *** show for the COO formats *)
  Theorem C101_show_coo B : c_nnz B <= 20 ->
    show_coo show_value B = Ok (concat (triple_line show_value <$> c_elems B) ++ [10]).
  Proof.
    intros Hn. unfold show_coo. destruct (Nat.ltb_spec 20 (c_nnz B)) as [|_]; [lia|].
    assert (Hl : for_range 0 (0 + c_nnz B) (fun i out => e ← lget (c_elems B) i;
        Ok (out ++ [40] ++ show_index (row e) ++ [44; 32] ++ show_index (col e) ++ [44; 32] ++ show_value (val e) ++ [41] ++ [10])) [] =
        Ok ([] ++ concat ((fun i => from_option (triple_line show_value) [] (c_elems B !! i)) <$> seq 0 (c_nnz B)))).
    { apply text_loop. intros i out Hi. unfold c_nnz in Hi. destruct (lookup_lt_is_Some_2 (c_elems B) i) as [e He]; [lia|].
      rewrite (lget_some _ _ e He), He. done. }
    cbn [Nat.add] in Hl. rewrite Hl. cbn [mbind outcome_bind app]. do 3 f_equal. apply seq_lines. intros i a Hi. cbn [Nat.add]. by rewrite Hi.
  Qed.
  Theorem C101_show_coo_big B : 20 < c_nnz B -> show_coo show_value B = Ok nonzeros_warning.
  Proof. intros Hn. unfold show_coo. by destruct (Nat.ltb_spec 20 (c_nnz B)) as [_|]; [|lia]. Qed.
  (** two printed texts are the same only if the matrices have the same elements in the same order, as far as the
      text of a value tells *)
  Lemma triple_inj e e' r r' : plain_values show_value ->
    triple_line show_value e ++ r = triple_line show_value e' ++ r' -> visible show_value e = visible show_value e' /\ r = r'.
  Proof.
    intros Hpl Heq. unfold triple_line in Heq. rewrite <- !app_assoc in Heq. cbn [app] in Heq. injection Heq as Heq.
    apply split_unique in Heq as [H1 Heq]; [|apply decimal_not; lia..]. injection Heq as Heq.
    apply split_unique in Heq as [H2 Heq]; [|apply decimal_not; lia..]. injection Heq as Heq.
    assert (Hs : forall v (s : bytes), show_value v ++ 41 :: 10 :: s = (show_value v ++ [41]) ++ 10 :: s) by (intros; by rewrite <- app_assoc).
    rewrite !Hs in Heq.
    apply split_unique in Heq as [H3 ->].
    - apply app_inj_tail in H3 as [H3 _]. split; [|done]. unfold visible. apply decimal_inj in H1, H2. by rewrite H1, H2, H3.
    - pose proof (proj2 (Hpl (val e))). set_solver.
    - pose proof (proj2 (Hpl (val e'))). set_solver.
  Qed.
  Theorem C101_show_coo_faithful B B' t : plain_values show_value -> c_nnz B <= 20 -> c_nnz B' <= 20 ->
    show_coo show_value B = Ok t -> show_coo show_value B' = Ok t ->
    visible show_value <$> c_elems B = visible show_value <$> c_elems B'.
  Proof.
    intros Hpl Hn Hn'. rewrite !C101_show_coo by done. intros Ht Ht'. injection Ht as <-. injection Ht' as Heq.
    clear Hn Hn'. revert Heq. generalize (c_elems B) as l, (c_elems B') as l'. induction l as [|e l IH]; intros [|e' l'] Heq; [done|..].
    - cbn in Heq. discriminate.
    - cbn in Heq. discriminate.
    - cbn [fmap list_fmap concat] in Heq |- *. rewrite <- !app_assoc in Heq. apply triple_inj in Heq as [Hv Heq]; [|done].
      rewrite Hv. f_equal. by apply IH.
  Qed.

  (** *** show for Csr *)
  Lemma csr_lines B A B' : in_range (c_rows B) (c_cols B) (c_elems B) -> c_rows B + 1 < itW -> c_nnz B < itW -> c_rows B <= 20 ->
    Coo_to_Csr B = Ok (A, B') -> show_csr show_value A = Ok (concat (row_line show_value (c_elems B) <$> seq 0 (c_rows B))).
  Proof.
    intros HB Hr Hn H20. pose proof (Coo_to_Csr_spec B HB Hr Hn) as HA. cbv zeta in HA. rewrite HA. clear HA.
    remember (full (ptrs (row <$> isort compare_row (c_elems B)) (c_rows B))) as P eqn:HP. intros Heq. injection Heq as <- _.
    unfold show_csr. cbn [csr_rows csr_ptr csr_ind csr_vals]. destruct (Nat.ltb_spec 20 (c_rows B)) as [|_]; [lia|].
    pose proof (csr_build_rep (fun c => c) (isort compare_row (c_elems B)) (c_rows B) (ksorted_isort_row _) (Forall_true _ _ (fun _ => eq_refl))) as Hrep.
    rewrite (text_loop0 (row_line show_value (c_elems B))); [done|]. rewrite HP. clear P HP. intros i out Hi.
    destruct (Hrep i ltac:(lia)) as (st & H1 & H2 & H3). cbn [Nat.add] in H1, H2, H3. cbv beta zeta. rewrite H1. cbn [mbind outcome_bind]. rewrite H2. cbn [mbind outcome_bind].
    set (R := bfilter (in_row i) (isort compare_row (c_elems B))) in *.
    match goal with |- context [for_range st _ ?body ?o] =>
      pose proof (text_loop (fun k => from_option (pair_item show_value) [] (R !! (k - st))) (length R) st body o) as Hl end.
    rewrite Hl.
    - cbn [mbind outcome_bind]. f_equal. rewrite (seq_lines (pair_item show_value) R).
      + unfold row_line. unfold R. rewrite row_filter_isort, (filter_isort _ (swo_bykey col)).
        rewrite <- !app_assoc. done.
      + intros j a Hj. replace (st + j - st) with j by lia. by rewrite Hj.
    - clear Hl. intros k o Hk. destruct (lookup_lt_is_Some_2 R (k - st)) as [e He]; [lia|].
      destruct (H3 _ _ He) as [H4 H5]. replace (st + (k - st)) with k in H4, H5 by lia. change (fun e : elem T => col e) with (@col T) in H4. rewrite H4. cbn [mbind outcome_bind]. rewrite H5. cbn [mbind outcome_bind].
      rewrite He. cbn [from_option]. done.
  Qed.
  (** a converted matrix of at most 20 rows: one line per row, in order *)
  Theorem C101_show_csr B : in_range (c_rows B) (c_cols B) (c_elems B) -> c_rows B + 1 < itW -> c_nnz B < itW -> c_rows B <= 20 ->
    exists A B', Coo_to_Csr B = Ok (A, B') /\
      show_csr show_value A = Ok (concat (row_line show_value (c_elems B) <$> seq 0 (c_rows B))).
  Proof.
    intros HB Hr Hn H20. pose proof (Coo_to_Csr_spec B HB Hr Hn) as HA. cbv zeta in HA. eexists _, _. split; [exact HA|]. by eapply csr_lines.
  Qed.
  (** of a matrix with more rows nothing is read *)
  Theorem C101_show_csr_big (A : csr T) : 20 < csr_rows A -> show_csr show_value A = Ok rows_warning.
  Proof. intros Hn. unfold show_csr. by destruct (Nat.ltb_spec 20 (csr_rows A)) as [_|]; [|lia]. Qed.

  Lemma items_inj : plain_values show_value -> forall (l l' : list (elem T)) r r',
    concat (pair_item show_value <$> l) ++ 10 :: r = concat (pair_item show_value <$> l') ++ 10 :: r' ->
    (fun e => (col e, show_value (val e))) <$> l = (fun e => (col e, show_value (val e))) <$> l' /\ r = r'.
  Proof.
    intros Hpl. induction l as [|e l IH]; intros [|e' l'] r r' Heq; cbn [fmap list_fmap concat app] in Heq.
    - by injection Heq.
    - unfold pair_item in Heq. cbn in Heq. discriminate.
    - unfold pair_item in Heq. cbn in Heq. discriminate.
    - unfold pair_item in Heq at 1 3. rewrite <- !app_assoc in Heq. cbn [app] in Heq. injection Heq as Heq.
      apply split_unique in Heq as [H1 Heq]; [|apply decimal_not; lia..].
      assert (Hs : forall v (s : bytes), show_value v ++ 41 :: 9 :: s = (show_value v ++ [41]) ++ 9 :: s) by (intros; by rewrite <- app_assoc).
      rewrite !Hs in Heq. apply split_unique in Heq as [H3 Heq].
      + apply app_inj_tail in H3 as [H3 _]. destruct (IH _ _ _ Heq) as [Hl ->]. split; [|done]. cbn [fmap list_fmap].
        apply decimal_inj in H1. rewrite H1, H3. f_equal. exact Hl.
      + pose proof (proj1 (Hpl (val e))). set_solver.
      + pose proof (proj1 (Hpl (val e'))). set_solver.
  Qed.
  Lemma rows_inj : plain_values show_value -> forall E E' n n' lo,
    concat (row_line show_value E <$> seq lo n) = concat (row_line show_value E' <$> seq lo n') ->
    n = n' /\ forall i, lo <= i < lo + n ->
      (fun e => (col e, show_value (val e))) <$> isort (bykey col) (bfilter (in_row i) E) =
      (fun e => (col e, show_value (val e))) <$> isort (bykey col) (bfilter (in_row i) E').
  Proof.
    intros Hpl E E'. induction n as [|n IH]; intros [|n'] lo Heq; cbn [seq fmap list_fmap concat] in Heq.
    - split; [done|]. lia.
    - unfold row_line in Heq. destruct (decimal_cons lo) as (c & l & Hd). rewrite Hd in Heq. cbn in Heq. discriminate.
    - unfold row_line in Heq. destruct (decimal_cons lo) as (c & l & Hd). rewrite Hd in Heq. cbn in Heq. discriminate.
    - unfold row_line in Heq at 1 3. rewrite <- !app_assoc in Heq. apply app_inv_head in Heq. cbn [app] in Heq. injection Heq as Heq.
      apply items_inj in Heq as [Hi Heq]; [|done]. destruct (IH n' (S lo) Heq) as [-> Hrest]. split; [done|].
      intros i Hlt. destruct (decide (i = lo)) as [->|]; [exact Hi|]. apply Hrest. lia.
  Qed.
  Lemma by_rows E n : bfilter (fun e => row e <? n) E ≡ₚ concat ((fun i => bfilter (in_row i) E) <$> seq 0 n).
  Proof.
    induction n as [|n IH].
    - cbn. induction E as [|e E IH]; [done|]. cbn. exact IH.
    - rewrite seq_S, fmap_app, concat_app. cbn [fmap list_fmap concat Nat.add]. rewrite app_nil_r, <- IH. clear IH.
      induction E as [|e E IH]; [done|]. cbn [List.filter]. change (in_row n e) with (row e =? n). destruct (Nat.ltb_spec (row e) (S n)), (Nat.ltb_spec (row e) n), (Nat.eqb_spec (row e) n); try lia.
      + cbn [app]. by rewrite IH.
      + rewrite IH. apply Permutation_middle.
      + exact IH.
  Qed.
  Lemma bfilter_all {A} (p : A -> bool) (l : list A) : Forall (fun a => p a = true) l -> bfilter p l = l.
  Proof. induction 1 as [|a l Ha _ IH]; [done|]. cbn. by rewrite Ha, IH. Qed.
  (** two converted matrices of at most 20 rows whose printed texts are the same have as many rows and the same
      elements, as far as the text of a value tells *)
  Theorem C101_show_csr_faithful B1 B2 A1 A2 B1' B2' t : plain_values show_value ->
    in_range (c_rows B1) (c_cols B1) (c_elems B1) -> c_rows B1 + 1 < itW -> c_nnz B1 < itW -> c_rows B1 <= 20 ->
    in_range (c_rows B2) (c_cols B2) (c_elems B2) -> c_rows B2 + 1 < itW -> c_nnz B2 < itW -> c_rows B2 <= 20 ->
    Coo_to_Csr B1 = Ok (A1, B1') -> Coo_to_Csr B2 = Ok (A2, B2') ->
    show_csr show_value A1 = Ok t -> show_csr show_value A2 = Ok t ->
    c_rows B1 = c_rows B2 /\ visible show_value <$> c_elems B1 ≡ₚ visible show_value <$> c_elems B2.
  Proof.
    intros Hpl I1 R1 N1 M1 I2 R2 N2 M2 C1 C2 S1 S2.
    rewrite (csr_lines B1 A1 B1') in S1 by done. rewrite (csr_lines B2 A2 B2') in S2 by done. injection S1 as <-. injection S2 as Heq.
    symmetry in Heq. apply rows_inj in Heq as [Hrows Hrow]; [|done]. split; [done|].
    assert (Hall : forall B, in_range (c_rows B) (c_cols B) (c_elems B) -> c_elems B ≡ₚ concat ((fun i => bfilter (in_row i) (c_elems B)) <$> seq 0 (c_rows B))).
    { intros B HB. rewrite <- by_rows. rewrite bfilter_all; [done|]. eapply Forall_impl; [exact HB|]. intros e [He _]. by apply Nat.ltb_lt. }
    rewrite (Hall B1 I1), (Hall B2 I2), <- Hrows.
    assert (Hn : forall n, n <= c_rows B1 ->
      visible show_value <$> concat ((fun i => bfilter (in_row i) (c_elems B1)) <$> seq 0 n) ≡ₚ
      visible show_value <$> concat ((fun i => bfilter (in_row i) (c_elems B2)) <$> seq 0 n)); [|by apply Hn].
    induction n as [|n IH]; intros Hn; [done|]. rewrite !seq_S, !fmap_app, !concat_app, !fmap_app. cbn [fmap list_fmap concat Nat.add]. rewrite !app_nil_r.
    f_equiv; [apply IH; lia|].
    assert (Hv : forall E, visible show_value <$> bfilter (in_row n) E ≡ₚ
      (fun p => (n, p.1, p.2)) <$> ((fun e => (col e, show_value (val e))) <$> isort (bykey col) (bfilter (in_row n) E))).
    { intros E. rewrite <- list_fmap_compose. rewrite isort_perm. apply (reflexive_eq (R := Permutation)). apply list_fmap_ext. intros j e Hj.
      apply elem_of_list_lookup_2, elem_of_list_In, filter_In in Hj as [_ Hj]. unfold in_row in Hj. apply Nat.eqb_eq in Hj. unfold visible. cbn. by rewrite Hj. }
    rewrite !Hv. rewrite Hrow by lia. done.
  Qed.
  (** with distinct coordinates the text does not depend on the order of the elements in the source *)
  Theorem C101_show_csr_canonical B1 B2 A1 A2 B1' B2' :
    in_range (c_rows B1) (c_cols B1) (c_elems B1) -> c_rows B1 + 1 < itW -> c_nnz B1 < itW -> c_rows B1 <= 20 ->
    c_rows B2 = c_rows B1 -> c_cols B2 = c_cols B1 -> c_elems B1 ≡ₚ c_elems B2 -> distinct_coords (c_elems B1) ->
    Coo_to_Csr B1 = Ok (A1, B1') -> Coo_to_Csr B2 = Ok (A2, B2') ->
    show_csr show_value A1 = show_csr show_value A2.
  Proof.
    intros I1 R1 N1 M1 HR HC Hp Hd C1 C2.
    rewrite (csr_lines B1 A1 B1') by done. rewrite (csr_lines B2 A2 B2'); [| |lia| |lia|done].
    2: { rewrite HR, HC. eapply in_range_perm; [exact Hp|done]. }
    2: { unfold c_nnz in *. by rewrite <- Hp. }
    rewrite HR. f_equal. f_equal. apply list_fmap_ext. intros j i Hj. unfold row_line. do 3 f_equal. f_equal. f_equal.
    apply (isort_unique _ (swo_bykey col)); [apply isort_sorted, swo_bykey|]. intros x.
    rewrite isort_stable by apply swo_bykey.
    set (P e := equivb (bykey col) x e && in_row i e).
    assert (HP : forall E, bfilter (equivb (bykey col) x) (bfilter (in_row i) E) = bfilter P E).
    { intros E. induction E as [|e E IH]; [done|]. cbn. unfold P at 1. destruct (in_row i e); cbn; [|rewrite andb_false_r; exact IH].
      rewrite andb_true_r. destruct (equivb _ x e); [f_equal|]; exact IH. }
    rewrite !HP.
    assert (Hpp : bfilter P (c_elems B1) ≡ₚ bfilter P (c_elems B2)).
    { clear -Hp. induction Hp as [|a l l' _ IH|a b l|l l' l'' _ IH1 _ IH2]; [done|..].
      - cbn. destruct (P a); [by f_equiv|done].
      - cbn. destruct (P a), (P b); try done. apply Permutation_swap.
      - by rewrite IH1. }
    assert (Hlen : length (bfilter P (c_elems B1)) <= 1).
    { assert (HQ : forall e, P e = true -> (row e, col e) = (i, col x)).
      { intros e He. unfold P, equivb, in_row, bykey in He. apply andb_true_iff in He as [He Hr%Nat.eqb_eq].
        apply andb_true_iff in He as [H1%negb_true_iff%Nat.ltb_ge H2%negb_true_iff%Nat.ltb_ge]. f_equal; [done|lia]. }
      unfold distinct_coords in Hd. clear -HQ Hd. induction (c_elems B1) as [|e E IH]; [cbn; lia|].
      cbn [fmap list_fmap] in Hd. apply NoDup_cons in Hd as [Hni Hd]. cbn. destruct (P e) eqn:He; [|by apply IH].
      cbn [length]. destruct (bfilter P E) as [|e' r] eqn:Hf; [cbn; lia|]. exfalso. apply Hni.
      assert (In e' (bfilter P E)) as [Hin He']%filter_In by (rewrite Hf; by left).
      rewrite (HQ e He), <- (HQ e' He'). apply elem_of_list_fmap. exists e'. split; [done|]. by apply elem_of_list_In. }
    destruct (bfilter P (c_elems B1)) as [|a [|a' r]]; [by apply Permutation_nil in Hpp|by apply Permutation_length_1_inv in Hpp|cbn in Hlen; lia].
  Qed.

  (** *** show for a vector *)
  Theorem C101_show_vector (x : list T) (size : nat) : size <= length x ->
    show_vector show_value (full x) size = Ok (concat (imap (fun i v => decimal i ++ [58; 32] ++ show_value v ++ [10]) (take size x))).
  Proof.
    intros Hn. unfold show_vector.
    rewrite (text_loop0 (fun i => from_option (fun v => decimal i ++ [58; 32] ++ show_value v ++ [10]) [] (x !! i))).
    - cbn [app]. do 2 f_equal. apply list_eq. intros i. rewrite list_lookup_imap, list_lookup_fmap.
      destruct (decide (i < size)) as [Hi|Hi].
      + rewrite lookup_seq_lt by done. rewrite lookup_take by done. destruct (lookup_lt_is_Some_2 x i ltac:(lia)) as [v Hv]. cbn. by rewrite Hv.
      + rewrite lookup_seq_ge by lia. rewrite lookup_take_ge by lia. done.
    - intros i out Hi. destruct (lookup_lt_is_Some_2 x i ltac:(lia)) as [v Hv]. rewrite aget_full, (lget_some _ _ v Hv), Hv. done.
  Qed.

  (** *** partition_dump *)
  (** the printed sizes [ds] of the chunks of block row br are those of the blocks from [from] to [to] *)
  Definition sizes_of_row (ptr : arr nat) (br : nat) (ds : list nat) : Prop :=
    exists from to, aget ptr br = Ok from /\ aget ptr (br + 1) = Ok to /\ 1 <= length ds /\ from + sum_list ds = to.
  Lemma gaps_sum (chunks : list nat) n : n < length chunks -> (forall i, S i < length chunks -> nth i chunks 0 <= nth (S i) chunks 0) ->
    nth 0 chunks 0 + sum_list ((fun i => nth i chunks 0 - nth (i - 1) chunks 0) <$> seq 1 n) = nth n chunks 0.
  Proof.
    intros Hn Hm. induction n as [|n IH]; [cbn; lia|]. rewrite seq_S, fmap_app, sum_list_with_app. cbn [fmap list_fmap sum_list_with Nat.add].
    specialize (Hm n Hn). specialize (IH ltac:(lia)). replace (S n - 1) with n by lia.
    unfold id at 2. lia.
  Qed.
  Lemma dump_spec nbr K parts : good_partition nbr K parts -> length K < itW ->
    exists sizes : list (list nat), length sizes = nbr /\
      partition_dump parts nbr = Ok (concat (imap sizes_line sizes)) /\
      forall br ds, sizes !! br = Some ds -> sizes_of_row (full (ptrs K nbr)) br ds.
  Proof.
    intros [Hlen Hg] HK.
    set (gaps := fun chunks : list nat => (fun i => nth i chunks 0 - nth (i - 1) chunks 0) <$> seq 1 (length chunks - 1)).
    exists (gaps <$> parts). split; [by rewrite fmap_length|]. split.
    - unfold partition_dump. rewrite (text_loop0 (fun br => from_option (fun c => sizes_line br (gaps c)) [] (parts !! br))).
      + cbn [app]. do 2 f_equal. apply list_eq. intros i. rewrite list_lookup_imap, !list_lookup_fmap.
        destruct (decide (i < nbr)) as [Hi|Hi].
        * rewrite lookup_seq_lt by done. destruct (lookup_lt_is_Some_2 parts i ltac:(lia)) as [c Hc]. cbn. by rewrite Hc.
        * rewrite lookup_seq_ge by lia. by rewrite (lookup_ge_None_2 parts) by lia.
      + intros br out Hbr. destruct (lookup_lt_is_Some_2 parts br ltac:(lia)) as [c Hc]. rewrite (lget_some _ _ c Hc), Hc. cbn [mbind outcome_bind from_option].
        destruct (Hg br c Hc) as [(T1 & T2 & T3 & T4) Hw].
        assert (Hb : forall i, i < length c -> nth i c 0 < itW).
        { intros i Hi. assert (nth i c 0 <= nth (length c - 1) c 0); [|rewrite T3 in *; pose proof (cntlt_le K (S br)); lia].
          assert (Hm : forall d j, j + d < length c -> nth j c 0 <= nth (j + d) c 0).
          { induction d as [|d IH]; intros j Hj; [by rewrite Nat.add_0_r|]. specialize (IH j ltac:(lia)). specialize (T4 (j + d) ltac:(lia)).
            replace (j + S d) with (S (j + d)) by lia. lia. }
          specialize (Hm (length c - 1 - i) i ltac:(lia)). by replace (i + (length c - 1 - i)) with (length c - 1) in Hm by lia. }
        replace (for_range 1 (length c)) with (@for_range bytes 1 (1 + (length c - 1))) by (f_equal; lia).
        rewrite (text_loop (fun i => decimal (nth i c 0 - nth (i - 1) c 0) ++ [32])).
        * cbn [mbind outcome_bind]. f_equal. unfold sizes_line. rewrite <- !app_assoc. rewrite wrap_small by lia.
          unfold gaps at 1. rewrite fmap_length, seq_length. unfold gaps. rewrite <- list_fmap_compose. done.
        * intros i o Hi. rewrite (lget_some c i (nth i c 0)) by (apply nth_some; lia). cbn [mbind outcome_bind].
          rewrite (lget_some c (i - 1) (nth (i - 1) c 0)) by (apply nth_some; lia). cbn [mbind outcome_bind]. 
          pose proof (Hb i ltac:(lia)). pose proof (Hb (i - 1) ltac:(lia)). pose proof (T4 (i - 1) ltac:(lia)) as Hm. replace (S (i - 1)) with i in Hm by lia.
          by rewrite wsub_small by lia.
    - intros br ds Hds. rewrite list_lookup_fmap in Hds. destruct (parts !! br) as [c|] eqn:Hc; [|done]. injection Hds as <-.
      pose proof (lookup_lt_Some _ _ _ Hc) as Hbr. destruct (Hg br c Hc) as [(T1 & T2 & T3 & T4) _].
      eexists _, _. split; [apply ptrs_get; lia|]. split; [apply ptrs_get; lia|]. rewrite Nat.add_1_r.
      unfold gaps. split; [rewrite fmap_length, seq_length; lia|]. rewrite <- T2, <- T3. apply gaps_sum; [lia|done].
  Qed.
  (** the dump of the partition of a Csbr: one line per block row, with the sizes of its chunks, which add up to the
      number of its blocks *)
  Theorem C101_partition_dump_csbr B roff nbr coff nbc workers :
    blockable B roff nbr coff nbc -> workers_ok B workers ->
    exists A parts B', Coo_to_Csbr workers B (full roff) nbr (full coff) nbc = Ok (A, parts, B') /\
      exists sizes : list (list nat), length sizes = nbr /\
        partition_dump parts nbr = Ok (concat (imap sizes_line sizes)) /\
        forall br ds, sizes !! br = Some ds -> sizes_of_row (sb_ptr A) br ds.
  Proof.
    destruct B as [rows cols E]. unfold c_nnz. cbn [c_rows c_cols c_elems].
    intros (Hne & HE & Hr & Hc & H1 & H2 & H3 & H4 & H5 & H6) (W1 & W2 & W3). unfold c_nnz in *. cbn [c_rows c_cols c_elems] in *.
    destruct (Coo_to_Csbr_spec roff nbr rows coff nbc cols E Hr Hc HE Hne H1 H2 H3 H4 H5 H6 workers W1 W2 W3) as (parts & HA & Hg & _).
    eexists _, _, _. split; [exact HA|]. cbn [sb_ptr csbr_matrix]. eapply dump_spec; [exact Hg|].
    unfold brs. rewrite fmap_length. pose proof (bids_length roff nbr coff nbc E). lia.
  Qed.
  (** ... and of a Cgbr2 *)
  Theorem C101_partition_dump_cgbr2 (choose : list (elem T) -> nat -> nat -> kind2) B roff nbr coff nbc workers :
    blockable B roff nbr coff nbc -> workers_ok B workers -> short_type -> short_blocks roff nbr coff nbc ->
    dense_blocks2 choose B roff nbr coff nbc small ->
    exists A parts B', Coo_to_Cgbr2 (make_block2 choose) workers B (full roff) nbr (full coff) nbc = Ok (A, parts, B') /\
      exists sizes : list (list nat), length sizes = nbr /\
        partition_dump parts nbr = Ok (concat (imap sizes_line sizes)) /\
        forall br ds, sizes !! br = Some ds -> sizes_of_row (cg_ptr A) br ds.
  Proof.
    destruct B as [rows cols E]. intros HB (W1 & W2 & W3) Hst Hsh Hd.
    pose proof (makes2 rows cols E roff nbr coff nbc HB Hsh choose Hd) as Hmk.
    pose proof HB as (Hne & HE & Hr & Hc & H1 & H2 & H3 & H4 & H5 & H6). unfold c_nnz in *. cbn [c_rows c_cols c_elems] in *.
    destruct (Coo_to_Cgbr2_spec roff nbr rows coff nbc cols E Hr Hc HE Hne H1 H2 H3 H4 H5 H6 (make_block2 choose) tag2 _ Hmk workers W1 W2 W3)
      as (parts & HA & Hg).
    eexists _, parts, _. split; [exact HA|]. eapply dump_spec; [exact Hg|].
    unfold brs. rewrite fmap_length. pose proof (bids_length roff nbr coff nbc E). lia.
  Qed.
End C101.

(** a matrix of the test program src/test/visual.cpp, with values printed as Z in decimal *)
Definition ex_show : coo Z := Coo 3 10 [Elem 2 9 6%Z 0; Elem 0 3 12%Z 0; Elem 0 1 1%Z 0; Elem 2 0 (-4)%Z 0].
Example C101_ex :
  (show_coo print_int ex_show = Ok ([40;50;44;32;57;44;32;54;41;10] ++ [40;48;44;32;51;44;32;49;50;41;10] ++
                                    [40;48;44;32;49;44;32;49;41;10] ++ [40;50;44;32;48;44;32;45;52;41;10] ++ [10])) /\
  (exists A B', Coo_to_Csr (H0 := ex_W16) ex_show = Ok (A, B') /\
     show_csr print_int A = Ok ([48;58;32;40;49;44;49;41;9;40;51;44;49;50;41;9;10] ++ [49;58;32;10] ++ [50;58;32;40;48;44;45;52;41;9;40;57;44;54;41;9;10])) /\
  (exists A parts B', Coo_to_Csbr (H0 := ex_W16) 1 (Coo 3 10 (c_elems ex_show)) (full [0; 2; 3]) 2 (full [0; 2; 10]) 2 = Ok (A, parts, B') /\
     partition_dump (H := ex_W16) parts 2 = Ok ([48;44;49;58;9;50;32;10] ++ [49;44;49;58;9;50;32;10])).
Proof.
  split; [by vm_compute|]. split.
  - eexists _, _. split; [by vm_compute|by vm_compute].
  - eexists _, _, _. split; [by vm_compute|by vm_compute].
Qed.
