(** SimpleProof.v: proofs about Simple.v *)
From Verif Require Export Simple CsrProof.

Section proofs.
  Context {T : Type} `{Scalar T} `{Widths}.
  Implicit Types (E : list (elem T)) (b : buf).

  (** an element with its coordinates relative to (d, xo) *)
  Lemma row_acc_rebase (f : elem T -> elem T) E x d xo k y :
    Forall (fun e => row e = d + row (f e) /\ col e = xo + col (f e) /\ val (f e) = val e) E ->
    row_acc (f <$> E) (drop xo x) k y = row_acc E x (d + k) y.
  Proof.
    intros HE. revert y. induction HE as [|e E (Hr & Hc & Hv) _ IH]; intros y; [done|].
    rewrite fmap_cons, !row_acc_cons.
    assert (accum (drop xo x) y (f e) = accum x y e) as -> by (unfold accum; by rewrite at_drop, Hc, Hv).
    destruct (Nat.eqb_spec (row (f e)) k), (Nat.eqb_spec (row e) (d + k)); try (rewrite !IH; done); lia.
  Qed.
  Lemma row_acc_filter E x (P : elem T -> bool) k y :
    (forall e, e ∈ E -> row e = k -> P e = true) -> row_acc (bfilter P E) x k y = row_acc E x k y.
  Proof.
    intros HP. apply row_acc_row. induction E as [|e E IH]; [done|]. simpl.
    assert (HE : forall e0, e0 ∈ E -> row e0 = k -> P e0 = true) by (intros; apply HP; [by right|done]).
    destruct (P e) eqn:HPe; simpl.
    - destruct (in_row k e); [f_equal|]; by apply IH.
    - destruct (in_row k e) eqn:Hk; [|by apply IH]. apply Nat.eqb_eq in Hk.
      rewrite HP in HPe by (done || left). done.
  Qed.

  (** ** coordinate formats *)
  Lemma copy_points_spec conv E :
    copy_points conv E = Ok (Coo1 (length E) (full ((fun e => conv (row e)) <$> E)) (full ((fun e => conv (col e)) <$> E)) (full (val <$> E))).
  Proof.
    apply wp_eq. unfold copy_points. apply wp_bind. eapply wp_mono.
    { apply (wp_for_range (fun i '(ri, ci, v) =>
        ri = part ((fun e => conv (row e)) <$> take i E) (length E) /\ ci = part ((fun e => conv (col e)) <$> take i E) (length E) /\
        v = part (val <$> take i E) (length E))); [lia| |].
      - rewrite <- !part_nil. done.
      - intros i [[ri ci] v] Hi (-> & -> & ->).
        destruct (lookup_lt_is_Some_2 E i) as [e He]; [lia|]. rewrite (lget_some _ _ _ He). cbn [mbind outcome_bind].
        assert (Hlt : length (take i E) = i) by (rewrite take_length; lia).
        pose proof (part_set ((fun e => conv (row e)) <$> take i E) (length E) (conv (row e))) as Hp1.
        rewrite fmap_length, Hlt in Hp1. rewrite Hp1 by lia. cbn [mbind outcome_bind].
        pose proof (part_set ((fun e => conv (col e)) <$> take i E) (length E) (conv (col e))) as Hp2.
        rewrite fmap_length, Hlt in Hp2. rewrite Hp2 by lia. cbn [mbind outcome_bind].
        pose proof (part_set (val <$> take i E) (length E) (val e)) as Hp3.
        rewrite fmap_length, Hlt in Hp3. rewrite Hp3 by lia. cbn [mbind outcome_bind wp].
        rewrite (take_S_r _ _ _ He), !fmap_app. done. }
    intros [[ri ci] v] (-> & -> & ->). rewrite firstn_all. cbn [wp]. f_equal.
    - pose proof (part_full ((fun e => conv (row e)) <$> E)) as Hp. rewrite fmap_length in Hp. exact Hp.
    - pose proof (part_full ((fun e => conv (col e)) <$> E)) as Hp. rewrite fmap_length in Hp. exact Hp.
    - pose proof (part_full (val <$> E)) as Hp. rewrite fmap_length in Hp. exact Hp.
  Qed.
  (** the element list a coordinate structure holds *)
  Lemma coo1_rep conv E : Forall (fun e => conv (row e) = row e /\ conv (col e) = col e) E ->
    coo_rep (full (val <$> E)) (full ((fun e => conv (row e)) <$> E)) (full ((fun e => conv (col e)) <$> E)) 0 E.
  Proof.
    intros HE k e He. rewrite Forall_lookup in HE. destruct (HE _ _ He) as [H1 H2].
    rewrite !aget_full. cbn [Nat.add].
    split; [|split]; (apply lget_some; rewrite list_lookup_fmap, He; cbn; congruence).
  Qed.
  Lemma performs_coo1_spmv conv E rows cols x xo b o (π : buf -> Prop) :
    Forall (fun e => conv (row e) = row e /\ conv (col e) = col e) E ->
    in_range rows cols E -> xo + cols <= length x ->
    performs (coo1_spmv (Coo1 (length E) (full ((fun e => conv (row e)) <$> E)) (full ((fun e => conv (col e)) <$> E)) (full (val <$> E))) x xo b o)
      b o rows π (fun k y => row_acc E (drop xo x) k y).
  Proof.
    intros Hc HE Hx. unfold coo1_spmv. cbn [k_val k_I k_J k_nnz]. eapply performs_spmv_coo; [by apply coo1_rep|exact HE|done].
  Qed.
  Lemma coo_spmv_spec (B : coo T) x y b :
    in_range (c_rows B) (c_cols B) (c_elems B) -> c_cols B <= length x -> length y = c_rows B ->
    all_schedules (coo_spmv B x b) (heap_of b y) tt (heap_of b (spmv_in_order (c_elems B) x y)).
  Proof.
    intros HE Hx Hy. eapply (performs_vector _ b y (fun _ => False)); [|by intros []].
    rewrite Hy. pose proof (performs_spmv_coo_aos (c_elems B) (c_rows B) (c_cols B) x 0 b 0 (fun _ => False) HE Hx) as Hp.
    rewrite drop_0 in Hp. exact Hp.
  Qed.
  (** BlockCoo: abort or exact *)
  Lemma assert_loop_ok E : Forall (fun e => row e < sitW /\ col e < sitW) E ->
    for_range 0 (length E) (fun i (_ : unit) => e ← lget E i; assert_ ((row e <? sitW) && (col e <? sitW))) tt = Ok tt.
  Proof.
    intros HE. apply wp_eq. apply (wp_for_range (fun _ u => u = tt)); [lia|done|].
    intros i [] Hi _. destruct (lookup_lt_is_Some_2 E i) as [e He]; [lia|]. rewrite (lget_some _ _ _ He).
    cbn [mbind outcome_bind]. rewrite Forall_lookup in HE. destruct (HE _ _ He) as [H1 H2].
    rewrite (proj2 (Nat.ltb_lt _ _) H1), (proj2 (Nat.ltb_lt _ _) H2). done.
  Qed.
  Lemma assert_loop_abort E : ~ Forall (fun e => row e < sitW /\ col e < sitW) E ->
    for_range 0 (length E) (fun i (_ : unit) => e ← lget E i; assert_ ((row e <? sitW) && (col e <? sitW))) tt = Abort.
  Proof.
    intros HE.
    assert (Hgen : forall n lo, lo + n = length E -> ~ Forall (fun e => row e < sitW /\ col e < sitW) (drop lo E) ->
       for_n n lo (fun i (_ : unit) => e ← lget E i; assert_ ((row e <? sitW) && (col e <? sitW))) tt = Abort).
    { induction n as [|n IH]; intros lo Hlo Hno.
      - exfalso. apply Hno. rewrite drop_ge by lia. constructor.
      - cbn [for_n]. destruct (lookup_lt_is_Some_2 E lo) as [e He]; [lia|]. rewrite (lget_some _ _ _ He).
        cbn [mbind outcome_bind]. rewrite (drop_S _ _ _ He) in Hno.
        destruct (Nat.ltb_spec (row e) sitW), (Nat.ltb_spec (col e) sitW); try done.
        cbn [andb assert_ mbind outcome_bind]. apply IH; [lia|]. intros Hf. apply Hno. by constructor. }
    unfold for_range. apply Hgen; [lia|]. by rewrite drop_0.
  Qed.
  Lemma Coo_to_BlockCoo_spec E : sitW < itW -> (N.of_nat sitW < 2147483648)%N ->
    (Forall (fun e => row e < sitW /\ col e < sitW) E /\
     let L := isort compare_morton E in
     Coo_to_BlockCoo E = Ok (Coo1 (length L) (full (row <$> L)) (full (col <$> L)) (full (val <$> L)), L))
    \/ (~ Forall (fun e => row e < sitW /\ col e < sitW) E /\ Coo_to_BlockCoo E = Abort).
  Proof.
    intros Hw Hs. unfold Coo_to_BlockCoo. rewrite (proj2 (Nat.ltb_lt _ _) Hw).
    rewrite (proj2 (N.leb_gt _ _) Hs).
    destruct (Forall_dec (fun e : elem T => row e < sitW /\ col e < sitW) E) as [HE|HE].
    - left. split; [done|]. cbv zeta. rewrite assert_loop_ok by done. cbn [mbind outcome_bind].
      rewrite sort_triplets_morton_spec. cbn [mbind outcome_bind]. rewrite copy_points_spec. cbn [mbind outcome_bind].
      do 2 f_equal. f_equal; f_equal.
      + apply list_fmap_ext. intros i e He. apply swrap_small. rewrite Forall_forall in HE.
        apply elem_of_list_lookup_2 in He. rewrite isort_perm in He. by apply HE.
      + apply list_fmap_ext. intros i e He. apply swrap_small. rewrite Forall_forall in HE.
        apply elem_of_list_lookup_2 in He. rewrite isort_perm in He. by apply HE.
    - right. split; [done|]. by rewrite assert_loop_abort.
  Qed.

  Lemma Coo_to_BlockCoo_ok E : itW <= sitW \/ (sitW < itW /\ (N.of_nat sitW < 2147483648)%N) -> Forall (fun e => row e < sitW /\ col e < sitW) E ->
    let L := isort compare_morton E in
    Coo_to_BlockCoo E = Ok (Coo1 (length L) (full (row <$> L)) (full (col <$> L)) (full (val <$> L)), L).
  Proof.
    intros [Hw|[H1 H2]] HE; [|by destruct (Coo_to_BlockCoo_spec E H1 H2) as [[_ Hok]|[Hbad _]]].
    cbv zeta. unfold Coo_to_BlockCoo. rewrite (proj2 (Nat.ltb_ge _ _) Hw). cbn [mbind outcome_bind].
    rewrite sort_triplets_morton_spec. cbn [mbind outcome_bind]. rewrite copy_points_spec. cbn [mbind outcome_bind].
    do 2 f_equal. f_equal; f_equal.
    + apply list_fmap_ext. intros i e He. apply swrap_small. rewrite Forall_forall in HE.
      apply elem_of_list_lookup_2 in He. rewrite isort_perm in He. by apply HE.
    + apply list_fmap_ext. intros i e He. apply swrap_small. rewrite Forall_forall in HE.
      apply elem_of_list_lookup_2 in He. rewrite isort_perm in He. by apply HE.
  Qed.

  (** ** wide rows *)
  Definition wrow (w : nat) (e : elem T) : nat := row e / w.
  Definition rebase_row (w : nat) (e : elem T) : elem T := Elem (row e mod w) (col e) (val e) (blk e).
  Lemma ksorted_widerows w E : ksorted (wrow w) (isort (compare_widerows w) E).
  Proof.
    unfold ksorted. pose proof (isort_sorted _ (swo_compare_widerows w) E) as Hs.
    induction Hs as [|a l Hs IH Hf]; constructor; [done|]. eapply Forall_impl; [exact Hf|].
    intros e He. unfold cle in He. rewrite compare_widerows_lex in He. unfold lex in He. rewrite orb_false_iff, Nat.ltb_ge in He.
    unfold wrow. lia.
  Qed.
  Lemma row_filter_widerows w E i : bfilter (in_row i) (isort (compare_widerows w) E) = bfilter (in_row i) (isort (bykey col) E).
  Proof.
    rewrite (filter_isort _ (swo_compare_widerows w)), (filter_isort _ (swo_bykey col)). apply isort_ext.
    intros e1 e2 H1 H2. apply filter_In in H1 as [_ H1], H2 as [_ H2].
    unfold in_row in H1, H2. apply Nat.eqb_eq in H1, H2. rewrite compare_widerows_lex. unfold lex, bykey. rewrite H1, H2.
    rewrite !Nat.ltb_irrefl, Nat.eqb_refl, andb_false_r, orb_false_r. done.
  Qed.
  Definition nwrows (rows w : nat) : nat := (rows + w - 1) / w.
  Lemma nwrows_spec rows w : 0 < w -> rows <= nwrows rows w * w /\ forall r, r < rows -> r / w < nwrows rows w.
  Proof.
    intros Hw. unfold nwrows.
    assert (Hle : rows <= (rows + w - 1) / w * w).
    { pose proof (Nat.div_mod (rows + w - 1) w ltac:(lia)) as Hd.
      pose proof (Nat.mod_upper_bound (rows + w - 1) w ltac:(lia)). lia. }
    split; [done|]. intros r Hr. apply Nat.div_lt_upper_bound; lia.
  Qed.
  Lemma Coo_to_Cswr_spec (B : coo T) w :
    in_range (c_rows B) (c_cols B) (c_elems B) -> 0 < w -> c_rows B + w + 1 < itW -> c_nnz B < itW ->
    let E := isort (compare_widerows w) (c_elems B) in
    Coo_to_Cswr B w =
      Ok (Cswr (c_rows B) (c_cols B) (nwrows (c_rows B) w) w (c_nnz B) (full (ptrs (wrow w <$> E) (nwrows (c_rows B) w)))
               (full ((fun e => swrap (row e mod w)) <$> E)) (full (col <$> E)) (full (val <$> E)),
          Coo (c_rows B) (c_cols B) E).
  Proof.
    intros HB Hw Hr Hn E. apply wp_eq. unfold Coo_to_Cswr.
    assert (wsub (wadd (c_rows B) w) 1 = c_rows B + w - 1) as ->.
    { unfold wadd. rewrite wrap_small by lia. apply wsub_small; lia. }
    rewrite div_ok by lia. cbn [mbind outcome_bind].
    rewrite sort_triplets_widerows_spec by done. cbn [mbind outcome_bind]. fold E.
    fold (nwrows (c_rows B) w). set (nw := nwrows (c_rows B) w).
    destruct (nwrows_spec (c_rows B) w Hw) as [_ Hnw]. fold nw in Hnw.
    assert (Hnwle : nw <= c_rows B + w).
    { unfold nw, nwrows. etrans; [apply Nat.div_le_upper_bound with (q := c_rows B + w - 1); nia|lia]. }
    assert (wadd nw 1 = S nw) as -> by (unfold wadd; rewrite wrap_small; lia).
    assert (HE : in_range (c_rows B) (c_cols B) E) by (eapply in_range_perm; [symmetry; apply isort_perm|done]).
    assert (HlE : length E = c_nnz B) by (unfold E; apply isort_length).
    rewrite <- HlE in Hn |- *. clearbody E.
    apply wp_bind. eapply wp_mono.
    { apply (wp_for_range (fun i '(ptr, R, C, v) =>
        ptr = full (counters (wrow w <$> take i E) nw) /\
        R = part ((fun e => swrap (row e mod w)) <$> take i E) (length E) /\ C = part (col <$> take i E) (length E) /\
        v = part (val <$> take i E) (length E))); [lia| |].
      - rewrite <- !part_nil, counters_nil. done.
      - intros i [[[ptr R] C] v] Hi (-> & -> & -> & ->).
        destruct (lookup_lt_is_Some_2 E i) as [e He]; [lia|]. rewrite (lget_some _ _ _ He). cbn [mbind outcome_bind].
        unfold in_range in HE. rewrite Forall_lookup in HE. destruct (HE _ _ He) as [Hre Hce].
        assert (Hlt : length (take i E) = i) by (rewrite take_length; lia).
        rewrite div_ok by lia. cbn [mbind outcome_bind].
        pose proof (Hnw _ Hre) as Hwr.
        assert (wadd (row e / w) 1 = row e / w + 1) as -> by (unfold wadd; apply wrap_small; lia).
        rewrite incr_step by (rewrite ?fmap_length; lia). cbn [mbind outcome_bind].
        rewrite mod_ok by lia. cbn [mbind outcome_bind].
        pose proof (part_set ((fun e => swrap (row e mod w)) <$> take i E) (length E) (swrap (row e mod w))) as Hp1.
        rewrite fmap_length, Hlt in Hp1. rewrite Hp1 by lia. cbn [mbind outcome_bind].
        pose proof (part_set (col <$> take i E) (length E) (col e)) as Hp2.
        rewrite fmap_length, Hlt in Hp2. rewrite Hp2 by lia. cbn [mbind outcome_bind].
        pose proof (part_set (val <$> take i E) (length E) (val e)) as Hp3.
        rewrite fmap_length, Hlt in Hp3. rewrite Hp3 by lia. cbn [mbind outcome_bind].
        rewrite part_get by (rewrite app_length, fmap_length, Hlt; simpl; lia).
        rewrite (lget_some _ i (swrap (row e mod w))).
        2:{ rewrite lookup_app_r by (rewrite fmap_length; lia). rewrite fmap_length, Hlt, Nat.sub_diag. done. }
        cbn [mbind outcome_bind].
        assert (Hsw : swrap (row e mod w) < w).
        { pose proof (Nat.mod_upper_bound (row e) w ltac:(lia)). unfold swrap.
          destruct (decide (sitW = 0)) as [Hz|Hz]; [rewrite Hz; cbn; lia|].
          pose proof (Nat.mod_le (row e mod w) sitW Hz). lia. }
        rewrite (proj2 (Nat.ltb_lt _ _) Hsw). cbn [assert_ mbind outcome_bind wp].
        rewrite (take_S_r _ _ _ He), !fmap_app. done. }
    intros [[[ptr R] C] v] (-> & -> & -> & ->). rewrite firstn_all.
    rewrite prefix_sum_spec by (rewrite fmap_length; lia). cbn [mbind outcome_bind].
    rewrite ptrs_get by lia. cbn [mbind outcome_bind].
    rewrite cntlt_all, fmap_length.
    2:{ apply Forall_fmap. eapply Forall_impl; [exact HE|]. intros e [Hre _]. by apply Hnw. }
    rewrite Nat.eqb_refl. cbn [assert_ mbind outcome_bind wp]. f_equal. f_equal.
    - pose proof (part_full ((fun e => swrap (row e mod w)) <$> E)) as Hp. rewrite fmap_length in Hp. exact Hp.
    - pose proof (part_full (col <$> E)) as Hp. rewrite fmap_length in Hp. exact Hp.
    - pose proof (part_full (val <$> E)) as Hp. rewrite fmap_length in Hp. exact Hp.
  Qed.
  Lemma in_range_elem E rows cols e : in_range rows cols E -> e ∈ E -> row e < rows /\ col e < cols.
  Proof. unfold in_range. rewrite Forall_forall. auto. Qed.
  Lemma elem_of_bfilter {A} (P : A -> bool) (l : list A) a : a ∈ bfilter P l <-> a ∈ l /\ P a = true.
  Proof. rewrite !elem_of_list_In. apply filter_In. Qed.
  (** what a wide-row matrix stores: the row inside its wide row is cut to the short type *)
  Definition cut_row (w : nat) (e : elem T) : elem T := Elem (row e / w * w + swrap (row e mod w)) (col e) (val e) (blk e).
  Definition short_row (w : nat) (e : elem T) : elem T := Elem (swrap (row e mod w)) (col e) (val e) (blk e).
  Lemma swrap_le n : sitW <> 0 -> swrap n <= n.
  Proof. intros Hs. unfold swrap. by apply Nat.mod_le. Qed.
  Lemma cut_row_le w e : sitW <> 0 -> 0 < w -> row (cut_row w e) <= row e /\ row (cut_row w e) / w = row e / w.
  Proof.
    intros Hs Hw. cbn. pose proof (swrap_le (row e mod w) Hs) as Hle.
    pose proof (Nat.div_mod (row e) w ltac:(lia)). pose proof (Nat.mod_upper_bound (row e) w ltac:(lia)).
    split; [lia|]. rewrite Nat.add_comm, Nat.div_add by lia. rewrite Nat.div_small by lia. done.
  Qed.
  Lemma cut_row_id w e : 0 < w -> w <= sitW -> cut_row w e = e.
  Proof.
    intros Hw Hs. unfold cut_row. pose proof (Nat.mod_upper_bound (row e) w ltac:(lia)). rewrite swrap_small by lia.
    rewrite (Nat.mul_comm _ w), <- Nat.div_mod by lia. by destruct e.
  Qed.
  Lemma cswr_spmv_any (B : coo T) w A B' x y b :
    in_range (c_rows B) (c_cols B) (c_elems B) -> 0 < w -> sitW <> 0 -> c_rows B + w + 1 < itW -> c_nnz B < itW ->
    Coo_to_Cswr B w = Ok (A, B') -> c_cols B <= length x -> length y = c_rows B ->
    all_schedules (cswr_spmv A x b) (heap_of b y) tt
      (heap_of b (spmv_in_order (cut_row w <$> isort (compare_widerows w) (c_elems B)) x y)).
  Proof.
    intros HB Hw Hsw Hr Hn HA Hx Hy. rewrite Coo_to_Cswr_spec in HA by done. cbv zeta in HA.
    injection HA as <- _. set (E := isort (compare_widerows w) (c_elems B)).
    assert (HE : in_range (c_rows B) (c_cols B) E) by (eapply in_range_perm; [symmetry; apply isort_perm|done]).
    assert (Hlen : length E = c_nnz B) by apply isort_length.
    set (rows := c_rows B) in *. destruct (nwrows_spec rows w Hw) as [Hnw1 Hnw2]. set (nw := nwrows rows w) in *.
    unfold cswr_spmv. cbn [w_nwrows w_ptr w_val w_row w_col w_width].
    set (off i := if decide (i * w <= rows) then i * w else rows).
    assert (Hoff0 : off 0 = 0) by (unfold off; rewrite decide_True by lia; lia).
    assert (Hoffn : off nw = rows) by (unfold off; case_decide; [lia|done]).
    pose proof (performs_parfor off (fun i =>
      wrow_start ← lift (aget (full (ptrs (wrow w <$> E) nw)) i);
      wrow_end ← lift (aget (full (ptrs (wrow w <$> E) nw)) (i + 1));
      spmv_coo (full (val <$> E)) (full ((fun e => swrap (row e mod w)) <$> E)) (full (col <$> E)) wrow_start
        (wsub wrow_end wrow_start) x 0 b (wmul w i)) b 0 (fun _ _ => False) nw 0 (fun k y => row_acc (cut_row w <$> E) x k y)) as Hp.
    cbn [Nat.add] in Hp. rewrite Hoff0, Hoffn, Nat.sub_0_r in Hp.
    assert (Hfin : performs (parfor nw 0 (fun i =>
      wrow_start ← lift (aget (full (ptrs (wrow w <$> E) nw)) i);
      wrow_end ← lift (aget (full (ptrs (wrow w <$> E) nw)) (i + 1));
      spmv_coo (full (val <$> E)) (full ((fun e => swrap (row e mod w)) <$> E)) (full (col <$> E)) wrow_start
        (wsub wrow_end wrow_start) x 0 b (wmul w i))) b 0 rows (fun _ => False) (fun k y => row_acc (cut_row w <$> E) x k y)).
    { eapply performs_priv; [|apply Hp].
      - by intros ? (i & _ & []).
      - intros i Hi. unfold off. repeat case_decide; nia.
      - intros i Hi.
        assert (Hi2 : i * w <= rows).
        { assert (i < (rows + w - 1) / w) as Hlt by (fold (nwrows rows w); fold nw; lia).
          pose proof (Nat.mul_div_le (rows + w - 1) w ltac:(lia)) as Hm.
          generalize dependent ((rows + w - 1) / w). intros q Hq Hm. nia. }
        assert (Hoi : off i = i * w) by (unfold off; by rewrite decide_True).
        rewrite Hoi, Nat.sub_0_r.
        eapply performs_lift; [apply ptrs_get; lia|]. eapply performs_lift; [apply ptrs_get; lia|].
        pose proof (cntlt_mono (wrow w <$> E) i (i + 1) ltac:(lia)) as Hmono.
        pose proof (cntlt_le (wrow w <$> E) (i + 1)) as Hle. rewrite fmap_length in Hle.
        rewrite wsub_small by lia.
        assert (wmul w i = i * w) as -> by (unfold wmul; rewrite Nat.mul_comm; apply wrap_small; lia).
        set (L := bfilter (has (wrow w) i) E).
        pose proof (sorted_slice (wrow w) E i (ksorted_widerows w _)) as Hsl. fold L in Hsl.
        replace (i + 1) with (S i) in * by lia.
        assert (HlL : length L = cntlt (wrow w <$> E) (S i) - cntlt (wrow w <$> E) i).
        { rewrite <- Hsl. apply slice_length. lia. }
        rewrite <- HlL. rewrite <- (fmap_length (short_row w) L).
        assert (HL : forall e, e ∈ L -> row e = i * w + row e mod w /\ row e / w = i /\ row e < rows /\ col e < c_cols B).
        { intros e He. apply elem_of_bfilter in He as [He Hk]. unfold has, wrow in Hk. apply Nat.eqb_eq in Hk.
          destruct (in_range_elem _ _ _ _ HE He). split; [|done].
          pose proof (Nat.div_mod (row e) w ltac:(lia)) as Hdm. rewrite Hk in Hdm. lia. }
        eapply performs_ext; [|eapply (performs_spmv_coo _ _ _ _ (short_row w <$> L) (off (S i) - i * w) (c_cols B))].
        + intros k y' Hk. cbv beta.
          assert (Hkw : k < w) by (unfold off in Hk; case_decide; lia).
          transitivity (row_acc (cut_row w <$> L) x (i * w + k) y').
          * rewrite <- (row_acc_rebase (fun e => Elem (row e - i * w) (col e) (val e) (blk e)) (cut_row w <$> L) x (i * w) 0 k).
            -- rewrite <- list_fmap_compose. apply row_acc_coords. rewrite <- !list_fmap_compose. apply list_fmap_ext.
               intros j e He. apply elem_of_list_lookup_2 in He. destruct (HL e He) as (_ & H1 & _).
               unfold coords. cbn. rewrite H1. f_equal. f_equal. lia.
            -- apply Forall_fmap, Forall_forall. intros e He. destruct (HL e He) as (_ & H1 & _). cbn. rewrite H1. split; [lia|]. done.
          * assert (HLE : cut_row w <$> L = bfilter (has (wrow w) i) (cut_row w <$> E)).
            { unfold L. clear -Hw Hsw. induction E as [|e E IH]; [done|]. rewrite fmap_cons. cbn [List.filter].
              assert (has (wrow w) i (cut_row w e) = has (wrow w) i e) as ->.
              { unfold has, wrow. f_equal. by apply cut_row_le. }
              destruct (has (wrow w) i e); rewrite ?fmap_cons, IH; done. }
            rewrite HLE. apply row_acc_filter. intros e He Hrow. unfold has, wrow. apply Nat.eqb_eq. rewrite Hrow.
            rewrite Nat.add_comm, Nat.div_add by lia. by rewrite Nat.div_small.
        + intros k e Hk. rewrite list_lookup_fmap in Hk. destruct (L !! k) as [e0|] eqn:He0; [|done].
          injection Hk as <-.
          assert (He : E !! (cntlt (wrow w <$> E) i + k) = Some e0).
          { pose proof (lookup_lt_Some _ _ _ He0) as Hl. rewrite <- Hsl in He0. rewrite slice_lookup in He0 by lia. done. }
          rewrite !aget_full. split; [|split]; apply lget_some; rewrite list_lookup_fmap, He; cbn; done.
        + apply Forall_fmap, Forall_forall. intros e He. destruct (HL e He) as (H1 & _ & H2 & H3). cbn. split; [|done].
          pose proof (Nat.mod_upper_bound (row e) w ltac:(lia)). pose proof (swrap_le (row e mod w) Hsw).
          unfold off. case_decide; lia.
        + lia.
      - done.
      - by intros i Hi []. }
    rewrite <- Hy in Hfin. exact (performs_vector _ b y _ _ Hfin ltac:(by intros [])).
  Qed.
  Lemma cswr_spmv_spec (B : coo T) w A B' x y b :
    in_range (c_rows B) (c_cols B) (c_elems B) -> 0 < w -> w <= sitW -> c_rows B + w + 1 < itW -> c_nnz B < itW ->
    Coo_to_Cswr B w = Ok (A, B') -> c_cols B <= length x -> length y = c_rows B ->
    all_schedules (cswr_spmv A x b) (heap_of b y) tt (heap_of b (spmv_by_column (c_elems B) x y)).
  Proof.
    intros HB Hw Hsw Hr Hn HA Hx Hy.
    assert (Hz : sitW <> 0) by lia.
    pose proof (cswr_spmv_any B w A B' x y b HB Hw Hz Hr Hn HA Hx Hy) as Hall.
    assert (Hid : forall l : list (elem T), cut_row w <$> l = l).
    { intros l. rewrite <- (list_fmap_id l) at 2. apply list_fmap_ext. intros i e _. by apply cut_row_id. }
    rewrite Hid in Hall. unfold spmv_in_order in Hall.
    erewrite imap_ext_lt in Hall; [exact Hall|]. intros i a _. apply row_acc_row. apply row_filter_widerows.
  Qed.
End proofs.
