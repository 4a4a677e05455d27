(** Properties_Compressed.v: C22 / C23: the compressed-row constructor as it would be with its
    row pointers initialised to zero (one line missing in include/matrix/crcsr.h): right on
    matrices whose elements come row by row, stopped by its own assertion on all others. *)
From Verif Require Import DenseProof Groups Properties_Utils Properties_Simple Properties_Blocked.

Section keys.
  Context {A : Type} (key : A -> nat).
  Lemma keys_prefix (l r : list A) : exists M, keys key (l ++ r) = keys key l ++ M.
  Proof.
    induction r as [|a r IH] using rev_ind; [exists []; by rewrite !app_nil_r|]. destruct IH as [M HM].
    rewrite app_assoc, keys_snoc. destruct (decide _); [by exists M|]. rewrite HM. exists (M ++ [key a]). by rewrite app_assoc.
  Qed.
  Lemma cntlt_increasing (N : list nat) i r : StronglySorted lt N -> N !! i = Some r -> cntlt N r = i.
  Proof.
    intros Hs. revert i. induction Hs as [|a N Hs IH Ha]; intros i Hi; [done|]. rewrite Forall_forall in Ha. unfold cntlt in *. cbn [List.filter].
    destruct i as [|i]; cbn in Hi.
    - injection Hi as ->. rewrite (proj2 (Nat.ltb_ge r r)) by lia. rewrite filter_none; [done|].
      apply Forall_forall. intros c Hc. apply Nat.ltb_ge. specialize (Ha c Hc). lia.
    - pose proof (Ha r (elem_of_list_lookup_2 _ _ _ Hi)). rewrite (proj2 (Nat.ltb_lt a r)) by done. cbn [length]. f_equal. by apply IH.
  Qed.
End keys.

(** the runs of a list are at least as many as its different values, with equality exactly when
    no value comes back after another one *)
Lemma runs_ids (K : list nat) : runs K = length (ids K).
Proof.
  induction K as [|k K IH] using rev_ind; [done|]. rewrite ids_snoc, ids_last.
  destruct (last K) as [k'|] eqn:Hl.
  - apply last_Some in Hl as [K' ->]. rewrite <- app_assoc. cbn [app]. rewrite runs_snoc, IH.
    destruct (decide (Some k' = Some k)) as [[= ->]|Hd].
    + rewrite Nat.eqb_refl. lia.
    + rewrite (proj2 (Nat.eqb_neq k' k)) by congruence. rewrite app_length. done.
  - apply last_None in Hl as ->. cbn. done.
Qed.

Section C23.
  Context {T : Type} `{Scalar T} `{Widths}.
  Implicit Types (E L l r : list (elem T)) (e : elem T) (x y : list T) (b : buf).

  (** the constructor of include/matrix/crcsr.h:34-86 with row_ptr zeroed *)
  Definition Coo_to_CrCsr_zeroed E : outcome (crcsr T * list (elem T)) :=
    nnzrows ← count_nnz_rows E;
    Coo_to_CrCsr_from (new_arr0 0) E nnzrows.

  Section build.
    Context (E : list (elem T)) (num : nat) (Hne : E <> []) (Hw : length E + 1 < itW) (Hnum : num + 1 < itW).
    Notation L := (isort compare_row E).
    Notation N := (keys row (isort compare_row E)).
    Context (Hd : length N <= num).
    Definition place e : nat := cntlt N (row e).

    Lemma N_sorted : StronglySorted lt N.
    Proof. apply keys_sorted, ksorted_isort_row. Qed.
    Lemma place_at i e : N !! i = Some (row e) -> place e = i.
    Proof. intros Hi. apply cntlt_increasing; [apply N_sorted|done]. Qed.
    Lemma place_prefix l e r : L = l ++ e :: r -> place e = length (keys row (l ++ [e])) - 1 /\ length (keys row (l ++ [e])) <= length N /\ 0 < length (keys row (l ++ [e])).
    Proof.
      intros HL. destruct (keys_prefix row (l ++ [e]) r) as [M HM]. rewrite <- app_assoc in HM. cbn [app] in HM. rewrite <- HL in HM.
      assert (Hlast : last (keys row (l ++ [e])) = Some (row e)).
      { unfold keys. rewrite ids_last, fmap_app. cbn [fmap list_fmap]. by rewrite last_snoc. }
      assert (Hpos : 0 < length (keys row (l ++ [e]))) by (destruct (keys row (l ++ [e])); [done|cbn; lia]).
      split; [|split; [rewrite HM, app_length; lia|done]]. apply place_at. rewrite HM, lookup_app_l by lia.
      rewrite last_lookup in Hlast. replace (length (keys row (l ++ [e])) - 1) with (pred (length (keys row (l ++ [e])))) by lia. done.
    Qed.
    Lemma loop_spec e0 : L !! 0 = Some e0 ->
      wp (for_range 0 (length E)
        (fun i '(cur, nz, ptr, C, v) =>
           e ← lget L i;
           C ← aset C i (col e);
           v ← aset v i (val e);
           r ← aget nz cur;
           '(cur, nz) ← (if negb (r =? row e) then
                           let cur := wadd cur 1 in
                           nz ← aset nz cur (row e);
                           Ok (cur, nz)
                         else Ok (cur, nz));
           ptr ← incr ptr (wadd cur 1);
           Ok (cur, nz, ptr, C, v)) (0, part [row e0] num, full (counters [] num), new_arr (length E), new_arr (length E)))
        (fun st => st = (length N - 1, part N num, full (counters (place <$> L) num), full (col <$> L), full (val <$> L))).
    Proof.
      intros HL0. pose proof (isort_length compare_row E) as Hlen.
      assert (Hpos : 0 < length E) by (destruct E; [done|cbn; lia]).
      eapply wp_mono; [apply (wp_for_range (fun i st =>
        st = (length (keys row (take i L)) - 1, part (if i =? 0 then [row e0] else keys row (take i L)) num,
              full (counters (place <$> take i L) num), part (col <$> take i L) (length E), part (val <$> take i L) (length E))))|].
      - lia.
      - rewrite take_0. cbn [fmap list_fmap Nat.eqb]. rewrite !part_nil. done.
      - intros i st Hi ->. destruct (lookup_lt_is_Some_2 L i) as [e He]; [lia|]. rewrite (lget_some _ _ _ He). cbn [mbind outcome_bind].
        assert (HL : L = take i L ++ e :: drop (S i) L) by (symmetry; by apply take_drop_middle).
        destruct (place_prefix _ _ _ HL) as (P1 & P2 & P3).
        assert (Hti : length (take i L) = i) by (rewrite take_length; lia).
        rewrite (take_S_snoc _ _ _ He).
        set (l := take i L) in *.
        pose proof (part_set (col <$> l) (length E) (col e)) as Hp1. rewrite fmap_length, Hti in Hp1. rewrite Hp1 by lia. cbn [mbind outcome_bind].
        pose proof (part_set (val <$> l) (length E) (val e)) as Hp2. rewrite fmap_length, Hti in Hp2. rewrite Hp2 by lia. cbn [mbind outcome_bind].
        rewrite !fmap_app. cbn [fmap list_fmap].
        assert (Hincr : incr (full (counters (place <$> l) num)) (wadd (length (keys row (l ++ [e])) - 1) 1) =
          Ok (full (counters ((place <$> l) ++ [place e]) num))).
        { rewrite P1. unfold wadd. rewrite wrap_small by lia. apply incr_step; [lia|]. rewrite fmap_length. lia. }
        cbn [Nat.eqb].
        destruct (Nat.eqb_spec i 0) as [->|Hi0].
        + assert (l = []) as Hl0 by (by destruct l). rewrite Hl0 in *. rewrite HL0 in He. injection He as ->.
          rewrite part_get by (cbn; lia). rewrite (lget_some _ _ (row e)) by done. cbn [mbind outcome_bind]. rewrite Nat.eqb_refl. cbn [negb mbind outcome_bind].
          change (length (keys row (@nil (elem T))) - 1) with (length (keys row ([] ++ [e])) - 1). rewrite Hincr. done.
        + assert (Hl : exists k', last (row <$> l) = Some k').
          { destruct (last (row <$> l)) eqn:Hq; [eauto|]. apply last_None in Hq. apply fmap_nil_inv in Hq. rewrite Hq in Hti. cbn in Hti. lia. }
          destruct Hl as [k' Hl]. assert (Hlk : last (keys row l) = Some k') by (unfold keys; by rewrite ids_last).
          assert (Hkl : 0 < length (keys row l)) by (destruct (keys row l); [done|cbn; lia]).
          rewrite part_get by lia. rewrite last_lookup in Hlk. replace (pred (length (keys row l))) with (length (keys row l) - 1) in Hlk by lia.
          rewrite (lget_some _ _ _ Hlk). cbn [mbind outcome_bind].
          rewrite keys_snoc, Hl in Hincr, P1, P2, P3 |- *.
          destruct (Nat.eqb_spec k' (row e)) as [->|Hkr]; cbn [negb mbind outcome_bind].
          * rewrite decide_True in Hincr |- * by done. rewrite Hincr. done.
          * rewrite decide_False in Hincr, P1, P2, P3 |- * by congruence. rewrite app_length in Hincr, P1, P2 |- *. cbn [length] in Hincr, P1, P2 |- *.
            assert (Hcur : wadd (length (keys row l) - 1) 1 = length (keys row l)) by (unfold wadd; rewrite wrap_small by lia; lia).
            rewrite Hcur, part_set by lia. cbn [mbind outcome_bind].
            replace (length (keys row l) + 1 - 1) with (length (keys row l)) in Hincr |- * by lia. rewrite Hincr. done.
      - intros st ->. rewrite (proj2 (Nat.eqb_neq (length E) 0)) by lia. rewrite <- Hlen, firstn_all.
        rewrite <- (part_full (col <$> L)), <- (part_full (val <$> L)), !fmap_length. done.
    Qed.
    Lemma zeroed_spec : Coo_to_CrCsr_from (new_arr0 0) E num =
      if length N =? num then Ok (CrCsr num (full (ptrs (place <$> L) num)) (full N) (full (col <$> L)) (full (val <$> L)), L) else Abort.
    Proof.
      unfold Coo_to_CrCsr_from. rewrite sort_triplets_spec. cbn [mbind outcome_bind].
      pose proof (isort_length compare_row E) as Hlen. assert (Hpos : 0 < length E) by (destruct E; [done|cbn; lia]).
      destruct (lookup_lt_is_Some_2 L 0) as [e0 He0]; [lia|]. rewrite (lget_some _ _ _ He0). cbn [mbind outcome_bind].
      assert (HL : L = [] ++ e0 :: drop 1 L).
      { rewrite <- (take_drop_middle _ _ _ He0) at 1. done. }
      destruct (place_prefix [] e0 _ HL) as (P1 & P2 & P3).
      pose proof (part_set (@nil nat) num (row e0)) as Hp. cbn [length app] in Hp. rewrite part_nil in Hp. rewrite Hp by lia. cbn [mbind outcome_bind].
      assert (Hn1 : wadd num 1 = S num) by (unfold wadd; rewrite wrap_small by lia; lia). rewrite Hn1, <- counters_nil.
      pose proof (loop_spec e0 He0) as Hloop. apply wp_exists in Hloop as (st & Hst & ->).
      match type of Hst with ?a = _ => match goal with |- context [for_range 0 (length E) ?f ?s] => change (for_range 0 (length E) f s) with a end end.
      rewrite Hst. clear Hst. cbn [mbind outcome_bind].
      assert (Hsub : wsub num 1 = num - 1) by (apply wsub_small; lia).
      rewrite Hsub. destruct (Nat.eqb_spec (length N) num) as [Heq|Hn].
      - rewrite Heq, Nat.eqb_refl. cbn [assert_ mbind outcome_bind].
        rewrite prefix_sum_spec by (rewrite fmap_length; lia). cbn [mbind outcome_bind]. rewrite ptrs_get by lia. cbn [mbind outcome_bind].
        rewrite cntlt_all.
        + rewrite fmap_length, Hlen, Nat.eqb_refl. cbn [assert_ mbind outcome_bind]. assert (Hpf : part N num = full N) by (rewrite <- Heq; apply part_full). by rewrite Hpf.
        + apply Forall_fmap, Forall_forall. intros e He. destruct (elem_of_list_split _ _ He) as (l & r & Hlr).
          destruct (place_prefix _ _ _ Hlr) as (Q1 & Q2 & Q3). cbn beta delta [compose]. lia.
      - rewrite (proj2 (Nat.eqb_neq (length N - 1) (num - 1))) by lia. done.
    Qed.
  End build.

  (** ** C23: with row pointers that start at zero the whole pipeline is right on every matrix
      whose elements come row by row; on any other matrix (a row comes back after another one)
      the constructor's assertion stops the program *)
  Theorem C23_zeroed_pipeline E (rows columns : nat) x y b :
    E <> [] -> length E + 1 < itW -> in_range rows columns E -> columns <= length x -> length y = rows ->
    (distinct_count (row <$> E) (runs (row <$> E)) ->
       exists A E', Coo_to_CrCsr_zeroed E = Ok (A, E') /\ E ≡ₚ E' /\ distinct_count (row <$> E) (r_num A) /\
         all_schedules (crcsr_spmv A x b) (heap_of b y) tt (heap_of b (spmv_by_column E x y)) /\
         all_schedules (crcsr_spmv_serial A x b) (heap_of b y) tt (heap_of b (spmv_by_column E x y))) /\
    (~ distinct_count (row <$> E) (runs (row <$> E)) -> Coo_to_CrCsr_zeroed E = Abort).
  Proof.
    intros Hne Hw HE Hx Hy. set (L := isort compare_row E). set (N := keys row L).
    pose proof (ksorted_isort_row E) as HsL. fold L in HsL.
    assert (HpL : L ≡ₚ E) by apply isort_perm.
    assert (HN : StronglySorted lt N) by (by apply keys_sorted).
    assert (HinN : forall k, k ∈ N <-> k ∈ row <$> E).
    { intros k. unfold N, keys. rewrite ids_elem. by rewrite HpL. }
    assert (HdN : distinct_count (row <$> E) (length N)).
    { exists N. split; [by apply increasing_NoDup|]. split; [apply HinN|done]. }
    assert (Huniq : forall n, distinct_count (row <$> E) n -> n = length N).
    { intros n (D & H1 & H2 & <-). apply Permutation_length, NoDup_Permutation; [done|by apply increasing_NoDup|].
      intros k. by rewrite H2, HinN. }
    assert (Hle : length N <= runs (row <$> E)).
    { rewrite runs_ids. apply submseteq_length, NoDup_submseteq; [by apply increasing_NoDup|]. intros k Hk. apply ids_elem, HinN, Hk. }
    assert (Hruns : runs (row <$> E) + 1 < itW).
    { pose proof (runs_le (row <$> E)) as Hr. rewrite fmap_length in Hr. lia. }
    assert (Heqn : Coo_to_CrCsr_zeroed E = if length N =? runs (row <$> E) then
        Ok (CrCsr (runs (row <$> E)) (full (ptrs (place E <$> L) (runs (row <$> E)))) (full N) (full (col <$> L)) (full (val <$> L)), L) else Abort).
    { unfold Coo_to_CrCsr_zeroed. rewrite count_nnz_rows_runs by (done || lia). cbn [mbind outcome_bind]. by apply zeroed_spec. }
    split.
    - intros Hdc. specialize (Huniq _ Hdc). rewrite Heqn, Huniq, Nat.eqb_refl.
      eexists _, L. split; [reflexivity|]. split; [by symmetry|]. split; [exact HdN|].
      assert (Hlook : forall (i r : nat), N !! i = Some r -> bfilter (in_row r) L = group (place E) i L).
      { intros i r Hi. unfold group. apply filter_ext_in. intros e He%elem_of_list_In. unfold in_row, has.
        assert (Hre : row e ∈ N) by (apply keys_elem; eauto). apply elem_of_list_lookup in Hre as [j Hj].
        rewrite (place_at E j e Hj). destruct (Nat.eqb_spec (row e) r) as [Heq|Hn], (Nat.eqb_spec j i) as [Hji|Hji]; try done; exfalso.
        - apply Hji. eapply NoDup_lookup; [by apply increasing_NoDup|exact Hj|by rewrite Heq].
        - subst j. congruence. }
      assert (Hplace : ksorted (place E) L).
      { unfold ksorted in *. eapply StronglySorted_mono; [|exact HsL]. intros e1 e2 He. unfold place. by apply cntlt_mono. }
      assert (Hby : spmv_by_column E x y = spmv_in_order L x y).
      { unfold spmv_by_column, spmv_in_order. apply imap_ext. intros i v _. unfold row_acc. unfold L. by rewrite row_filter_isort. }
      rewrite Hby.
      pose proof (C23_compressed_rows_spmv N (ptrs (place E <$> L) (length N)) (col <$> L) (val <$> L) L rows columns x y b) as Hk.
      cbv zeta in Hk. apply Hk; clear Hk; try done.
      + intros e He. apply keys_elem. eauto.
      + apply Forall_forall. intros r Hr. apply HinN in Hr. apply elem_of_list_fmap in Hr as (e & -> & He).
        by destruct (in_range_elem _ _ _ _ HE He).
      + unfold in_range in *. by rewrite HpL.
      + apply ptrs_length.
      + intros i r Hi. pose proof (lookup_lt_Some _ _ _ Hi) as Hlt. rewrite (Hlook i r Hi).
        assert (Hnth : forall j, j <= length N -> nth j (ptrs (place E <$> L) (length N)) 0 = cntlt (place E <$> L) j) by (intros j Hj; by apply nth_lookup_Some, ptrs_lookup).
        rewrite !Hnth by lia.
        assert (Hlen : length (group (place E) i L) = cnteq (place E <$> L) i) by (symmetry; apply cnteq_fmap).
        split; [rewrite cntlt_S; lia|]. rewrite Hlen.
        split; [rewrite (group_slice (place E) L i Hplace) at 1|rewrite (group_slice (place E) L i Hplace) at 1]; unfold slice; by rewrite fmap_take, fmap_drop.
    - intros Hnd. rewrite Heqn. destruct (Nat.eqb_spec (length N) (runs (row <$> E))) as [Heq|]; [|done]. by rewrite Heq in HdN.
  Qed.
End C23.

(** both cases occur *)
Example C23_zeroed_ex : let W := {| itW := 100; sitW := 10 |} in
  let E := [Elem 2 1 5%Z 0; Elem 0 3 7%Z 0; Elem 0 1 2%Z 0] in
  distinct_count (row <$> E) (runs (row <$> E)) /\
  Coo_to_CrCsr_zeroed E = Ok (CrCsr 2 (full [0; 2; 3]) (full [0; 2]) (full [1; 3; 1]) (full [2%Z; 7%Z; 5%Z]), [Elem 0 1 2%Z 0; Elem 0 3 7%Z 0; Elem 2 1 5%Z 0]) /\
  Coo_to_CrCsr_zeroed [Elem 0 3 7%Z 0; Elem 2 1 5%Z 0; Elem 0 1 2%Z 0] = Abort.
Proof.
  cbv zeta. split; [|by vm_compute]. exists [2; 0]. split; [apply (bool_decide_unpack _); vm_compute; exact Logic.I|].
  split; [|done]. intros k. cbn. set_solver.
Qed.
