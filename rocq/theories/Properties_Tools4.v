(** Properties_Tools4.v: C74, the tools expanded and prepare, with the reader of three files
    they were meant to have ([meant_reader], see Properties_Tools2.v; the one they have is
    undefined on every input). *)
From Verif Require Import ToolsProof IoProof TextProof PermuteProof ParCells CsbrProof Csbr2Proof BlockIoProof Properties_Utils Properties_Simple Properties_Blocked Properties_Reuse Properties_Permute Properties_Expand Properties_Io Properties_BlockIo Properties_Mm2 Properties_Tools Properties_Tools2 Properties_Tools3.
From Coq Require Import ZifyNat ZifyBool.

(** ** Numbers in file names *)
Lemma dec_fuel_length (fuel : nat) : forall (n : N) (d : nat), 0 < d -> (n < 10 ^ N.of_nat d)%N -> length (dec_fuel fuel n) <= d.
Proof.
  induction fuel as [|fuel IH]; intros n d Hd Hn; cbn [dec_fuel]; [cbn; lia|]. rewrite app_length. cbn [length].
  destruct (N.ltb_spec n 10) as [Hlt|Hge]; [cbn; lia|]. destruct d as [|d]; [lia|].
  assert (Hp : (10 ^ N.of_nat (S d) = 10 * 10 ^ N.of_nat d)%N) by (rewrite Nat2N.inj_succ, N.pow_succ_r'; done). rewrite Hp in Hn.
  destruct d as [|d]; [cbn in Hn; lia|].
  specialize (IH (n / 10)%N (S d) ltac:(lia)). assert (n / 10 < 10 ^ N.of_nat (S d))%N by (apply N.div_lt_upper_bound; lia). specialize (IH H). lia.
Qed.
Lemma print_dec_length (n : nat) (W : nat) : n < W -> (N.of_nat W <= 10 ^ 20)%N -> length (print_dec (N.of_nat n)) <= 20.
Proof. intros Hn HW. apply dec_fuel_length; [lia|]. change (N.of_nat 20) with 20%N. lia. Qed.
Lemma print_dec_no_zero (n : N) : no_zero (print_dec n).
Proof.
  destruct (print_dec_spec n) as (Hd & _ & _). eapply Forall_impl; [exact Hd|]. intros c Hc ->. done.
Qed.

(** ** Sorting a matrix with block ids several times *)
Lemma isort_ties {T} (c : elem T -> elem T -> bool) (l : list (elem T)) : (forall a b, a ∈ l -> b ∈ l -> c a b = false) -> isort c l = l.
Proof.
  intros Hc. apply isort_id. induction l as [|a l IH]; constructor.
  - apply IH. intros x y Hx Hy. apply Hc; by right.
  - apply Forall_forall. intros x Hx. apply Hc; [by right|by left].
Qed.
Definition rc_tie {T} (a b : elem T) : bool := (row a =? row b) && (col a =? col b).
Lemma blocks_then_column {T} (E1 : list (elem T)) (id : nat -> nat -> nat) : Forall (fun e => blk e = id (row e) (col e)) E1 ->
  sorted_by_column E1 (isort compare_col (isort compare_blocks (isort compare_row E1))).
Proof.
  intros Hid. set (Er := isort compare_row E1). set (Eb := isort compare_blocks Er).
  destruct (C11_sort_triplets false Eb) as (Ec & HEc & S1 & S2 & S3). rewrite sort_triplets_spec in HEc. injection HEc as <-.
  destruct (C11_sort_triplets true E1) as (Er' & HEr & R1 & R2 & R3). rewrite sort_triplets_spec in HEr. injection HEr as <-. fold Er in R1, R2, R3.
  split; [exact S1|]. split; [rewrite S2; unfold Eb; by rewrite isort_perm, R2|]. intros e. rewrite S3, <- R3. unfold Eb.
  rewrite (filter_isort _ swo_compare_blocks). apply isort_ties.
  assert (G : forall a, a ∈ bfilter (fun b => (row e =? row b) && (col e =? col b)) Er -> row a = row e /\ col a = col e /\ blk a = id (row e) (col e)).
  { intros a Ha. apply elem_of_list_In, filter_In in Ha as [Ha Ht]. apply andb_true_iff in Ht as [T1%Nat.eqb_eq T2%Nat.eqb_eq].
    apply elem_of_list_In in Ha. rewrite R2 in Ha. rewrite Forall_forall in Hid. rewrite (Hid a Ha), T1, T2. done. }
  intros a b Ha Hb. destruct (G a Ha) as (A1 & A2 & A3). destruct (G b Hb) as (B1 & B2 & B3).
  unfold compare_blocks. rewrite A1, A2, A3, B1, B2, B3, !Nat.ltb_irrefl, !andb_false_r. done.
Qed.

(** ** Expansion and the product *)
Definition expand_matrix {T} (ex : nat -> nat) (E : list (elem T)) : list (elem T) := (fun e => Elem (ex (row e)) (ex (col e)) (val e) (blk e)) <$> E.
(** entry i of x is entry ex i of x' *)
Definition spread {T} (ex : nat -> nat) (n : nat) (x x' : list T) : Prop := forall i, i < n -> x' !! ex i = x !! i.
Lemma spread_product {T} `{Scalar T} (ex : nat -> nat) (n : nat) (E : list (elem T)) (x x' y y' : list T) :
  in_range n n E -> (forall i j, i < j < n -> ex i < ex j) -> spread ex n x x' -> spread ex n y y' ->
  spread ex n (spmv_in_order E x y) (spmv_in_order (expand_matrix ex E) x' y').
Proof.
  intros HE Hmono Hx Hy i Hi. unfold spmv_in_order. rewrite !list_lookup_imap, Hy by done. destruct (y !! i) as [a|]; [|done]. cbn. f_equal.
  assert (Hinj : forall j, j < n -> ex j = ex i -> j = i).
  { intros j Hj Heq. destruct (Nat.lt_trichotomy i j) as [Hlt|[->|Hgt]]; [|done|].
    - pose proof (Hmono i j ltac:(lia)). lia.
    - pose proof (Hmono j i ltac:(lia)). lia. }
  revert a. induction HE as [|e E [Her Hec] HE IH]; intros a; [done|]. cbn [expand_matrix fmap list_fmap]. fold (expand_matrix ex E).
  rewrite !row_acc_cons. cbn [row col val].
  assert (accum x' a (Elem (ex (row e)) (ex (col e)) (val e) (blk e)) = accum x a e) as ->.
  { unfold accum, at_. cbn [val col]. do 2 f_equal. rewrite !nth_lookup. by rewrite (Hx _ Hec). }
  destruct (Nat.eqb_spec (row e) i) as [->|Hne]; [by rewrite Nat.eqb_refl, IH|].
  destruct (Nat.eqb_spec (ex (row e)) (ex i)) as [Heq|]; [exfalso; by apply Hne, Hinj|]. by rewrite IH.
Qed.

Section C74.
  Context {T : Type} `{Scalar T} `{Widths} (RT : repr T) (k umax : nat).
  Notation RI := (index_repr k).
  Implicit Types (x y : list T) (b : buf).

  (** what expansion of a matrix with block ids (in any order) writes *)
  Lemma expand_write (n : nat) (sizes off : list nat) (E0 Es : list (elem T)) (B : nat) (ex : nat -> nat) :
    in_range n n E0 -> blocking off (length sizes) n -> Es ≡ₚ with_ids off (length sizes) off (length sizes) E0 ->
    (forall (b : buf) (E : list (elem T)),
       Forall (fun e => exists br bc, br < length sizes /\ bc < length sizes /\ in_block off br (row e) /\ in_block off bc (col e) /\ blk e = br * length sizes + bc) E ->
       all_schedules (expand_elements b (length E) (full sizes) (full off) (length sizes)) (heap_of b E) B
         (heap_of b ((fun e => Elem (ex (row e)) (ex (col e)) (val e) (blk e)) <$> E))) ->
    par_do (fun b => expand_elements b (length Es) (full sizes) (full off) (length sizes)) Es = Ok (B, expand_matrix ex Es).
  Proof.
    intros HE Hb Hp Hex. apply par_do_spec; [unfold expand_matrix; by rewrite fmap_length|]. apply Hex. rewrite Hp. unfold with_ids.
    apply Forall_fmap, Forall_forall. intros e He. unfold in_range in HE. rewrite Forall_forall in HE. destruct (HE e He) as [H1 H2].
    destruct (block_of_spec off (length sizes) n (row e) Hb H1) as [A1 A2]. destruct (block_of_spec off (length sizes) n (col e) Hb H2) as [B1 B2].
    exists (block_of off (length sizes) (row e)), (block_of off (length sizes) (col e)). done.
  Qed.
  Lemma expand_fits (n nb B : nat) (off : list nat) (ex : nat -> nat) (E : list (elem T)) :
    in_range n n E -> blocking off nb n -> nb * B < itW -> length E < itW ->
    (forall c i, c < nb -> in_block off c i -> ex i / B = c /\ ex i < nb * B) ->
    fits (Coo (nb * B) (nb * B) (expand_matrix ex E)) /\ in_range (nb * B) (nb * B) (expand_matrix ex E).
  Proof.
    intros HE Hb HB Hl Hex.
    assert (Hin : in_range (nb * B) (nb * B) (expand_matrix ex E)).
    { apply Forall_fmap. eapply Forall_impl; [exact HE|]. intros e [H1 H2]. unfold compose. cbn [row col].
      destruct (block_of_spec off nb n (row e) Hb H1) as [A1 A2]. destruct (block_of_spec off nb n (col e) Hb H2) as [B1 B2].
      split; [apply (Hex _ _ A1 A2)|apply (Hex _ _ B1 B2)]. }
    split; [|done]. unfold fits, c_nnz. cbn [c_rows c_cols c_elems]. split; [done|]. split; [done|]. split; [unfold expand_matrix; by rewrite fmap_length|].
    eapply Forall_impl; [exact Hin|]. intros e []. lia.
  Qed.
  Lemma with_ids_coords (off : list nat) (nb : nat) (E : list (elem T)) : coords <$> with_ids off nb off nb E = coords <$> E.
  Proof. unfold with_ids. rewrite <- list_fmap_compose. apply list_fmap_ext. by intros i e _. Qed.
  Lemma with_ids_in_range (off : list nat) (nb n : nat) (E : list (elem T)) : in_range n n E -> in_range n n (with_ids off nb off nb E).
  Proof. intros HE. apply Forall_fmap. exact HE. Qed.

  (** the tool expanded *)
  Theorem C74_expanded (rows cols vals sizes out : bytes) (F : fs) (fr fc fv fz : bytes) (n : nat) :
    index_bytes k -> storable RT -> (N.of_nat itW <= 10 ^ 20)%N ->
    F !! rows = Some fr -> F !! cols = Some fc -> F !! vals = Some fv -> F !! sizes = Some fz ->
    blocked_input RT k n fr fc fv fz -> expandable (items RI fz) -> no_zero out -> length out <= 227 ->
    let E := file_elements RT k fr fc fv in let nb := length (items RI fz) in
    exists F' f E1 Ec off B ex,
      expanded RT k (meant_reader RT k n n) rows cols vals sizes out F = Ok (0%Z, F') /\
      coords <$> E1 = coords <$> E /\ sorted_by_column E1 Ec /\
      size_to_offset (new_arr (nb + 1)) (full (items RI fz)) nb = Ok (full off) /\ power_of_two B /\ expands off nb B ex /\
      F' !! (out ++ str ".exp" ++ print_dec (N.of_nat B)) = Some f /\
      read_bin_COO RT k (Some f) = Ok (0%Z, Some (raw_of (Coo (nb * B) (nb * B) (expand_matrix ex Ec)))) /\
      in_range (nb * B) (nb * B) (expand_matrix ex Ec) /\
      (forall x x' y y', spread ex n x x' -> spread ex n y y' -> spread ex n (spmv_in_order Ec x y) (spmv_in_order (expand_matrix ex Ec) x' y')) /\
      (forall name : bytes, name <> out ++ str ".exp" ++ print_dec (N.of_nat B) -> F' !! name = F !! name).
  Proof.
    intros Hk HR HW H1 H2 H3 H4 HI Hex Hz Hlen E nb. pose proof HI as (I1 & I2 & I3 & I4 & I5 & I6 & I7). fold E in I1, I2, I7. fold nb in I4, I5. pose proof Hk as [Hk0 _].
    destruct (C50_expand (items RI fz) Hex) as (off & B & ex & Hb & Hst & Ho & HB & HnB & Hexp & Hmono & Hdiv & _ & Hsch). fold nb in Hb, Ho, HnB, Hexp, Hdiv. rewrite I3 in Hb, Hmono.
    set (E1 := with_ids off nb off nb E).
    destruct (C11_sort_triplets false E1) as (Ec & HEc & Hs). pose proof Hs as (_ & Hperm & _).
    assert (HcB : B <> 0 -> B < itW). { intros HB0. assert (1 <= nb). { unfold nb. destruct Hex as ((s & Hs' & _) & _). destruct (items RI fz); [by apply elem_of_nil in Hs'|cbn; lia]. } nia. }
    assert (HBW : B < itW) by (destruct (decide (B = 0)) as [->|]; [lia|auto]).
    assert (HrE1 : in_range n n E1) by (by apply with_ids_in_range).
    assert (HrEc : in_range n n Ec) by (unfold in_range; by rewrite Hperm).
    assert (HlEc : length Ec < itW) by (rewrite Hperm; unfold E1, with_ids; rewrite fmap_length; lia).
    destruct (expand_fits n nb B off ex Ec HrEc Hb HnB HlEc Hdiv) as [Hfits Hin].
    set (f := write_bin_COO RT k (Coo (nb * B) (nb * B) (expand_matrix ex Ec))).
    pose proof (C51_bin_roundtrip RT k _ Hk HR Hfits) as Hrt.
    destruct (output_name_spec (new_arr 256) out (str ".exp" ++ print_dec (N.of_nat B)) 246) as (buf' & Hout & _).
    { done. } { apply Forall_app_2; [by apply no_zero_str|apply print_dec_no_zero]. } { lia. } { unfold new_arr. rewrite replicate_length. lia. }
    { unfold new_arr. rewrite replicate_length, app_length. pose proof (print_dec_length B itW HBW HW). cbn [length str]. change (length (str ".exp")) with 4. lia. }
    exists (<[out ++ str ".exp" ++ print_dec (N.of_nat B) := f]> F), f, E1, Ec, off, B, ex.
    split.
    { unfold expanded. rewrite H4, read_array_items by done. cbn [mbind outcome_bind Z.ltb Z.compare]. fold nb. rewrite wrap_small by lia. rewrite Ho. cbn [mbind outcome_bind].
      assert (aget (full off) nb = Ok (nth nb off 0)) as ->. { rewrite aget_full. apply lget_some, nth_some. destruct Hb as (-> & _). lia. }
      cbn [mbind outcome_bind]. rewrite H1, H2, H3. cbn [meant_reader mbind outcome_bind use]. rewrite coo_of_meant. cbn [mbind outcome_bind c_elems]. fold E.
      rewrite (calculate_block_id_spec E off nb off nb n n) by first [exact Hb|exact I2|lia]. cbn [mbind outcome_bind]. fold E1. rewrite HEc. cbn [mbind outcome_bind].
      pose proof (expand_write n (items RI fz) off E Ec B ex I2 Hb Hperm (Hsch T)) as Hew. fold nb in Hew. rewrite Hew. clear Hew. cbn [mbind outcome_bind]. rewrite Hout. cbn [mbind outcome_bind].
      unfold wmul. rewrite wrap_small by lia. rewrite (Nat.mul_comm B nb). reflexivity. }
    split; [apply with_ids_coords|]. split; [exact Hs|]. split; [exact Ho|]. split; [exact HB|]. split; [exact Hexp|]. split; [apply lookup_insert|]. split; [exact Hrt|]. split; [exact Hin|].
    split; [intros x x' y y' Hx Hy; by apply spread_product|]. intros name Hne. by rewrite lookup_insert_ne by done.
  Qed.

  (** the tool prepare *)
  (** rows and columns replaced through p, values kept *)
  Definition relabelled (p : list nat) (E E1 : list (elem T)) : Prop :=
    Forall2 (fun e e1 => p !! row e = Some (row e1) /\ p !! col e = Some (col e1) /\ val e1 = val e) E E1.
  Lemma relabelled_files (p : list nat) (fr gr fc gc fv : bytes) : mapped p (items RI fr) (items RI gr) -> mapped p (items RI fc) (items RI gc) ->
    relabelled p (file_elements RT k fr fc fv) (file_elements RT k gr gc fv).
  Proof.
    unfold file_elements. intros Hr. generalize (items RI fc) (items RI gc) (items RT fv). induction Hr as [|i j l l' Hi Hr IH]; intros lc lc' lv Hc; [constructor|].
    destruct Hc as [|ci cj lc lc' Hci Hc]; [constructor|]. destruct lv as [|v lv]; [constructor|]. cbn. constructor; [done|]. by apply IH.
  Qed.
  Lemma relabelled_in_range (p : list nat) (n : nat) (E E1 : list (elem T)) : p ≡ₚ seq 0 n -> relabelled p E E1 -> in_range n n E1.
  Proof.
    intros Hp HE. assert (G : forall i v, p !! i = Some v -> v < n).
    { intros i v Hv. assert (v ∈ seq 0 n) as Hin by (rewrite <- Hp; by eapply elem_of_list_lookup_2). apply elem_of_seq in Hin. lia. }
    induction HE as [|e e1 E E1 (H1 & H2 & _) _ IH]; constructor; [|done]. split; eauto.
  Qed.
  Lemma relabelled_coords (p : list nat) (E E0 E1 : list (elem T)) : relabelled p E E0 -> coords <$> E1 = coords <$> E0 -> relabelled p E E1.
  Proof.
    intros HE. revert E1. induction HE as [|e e1 E E0 (H1 & H2 & H3) HE IH]; intros [|e' E1] Heq; try done; [constructor|].
    cbn in Heq. injection Heq as C1 C2 C3 Heq. constructor; [by rewrite C1, C2, C3|by apply IH].
  Qed.

  Lemma prepare_permute_spec (name tmp : bytes) (p : list nat) (F : fs) (f : bytes) (l' : list nat) :
    index_bytes k -> F !! name = Some f -> mapped p (items RI f) l' -> length (items RI f) < itW ->
    prepare_permute k name tmp p F = Ok (inl (<[tmp := fwrite RI l']> F)).
  Proof.
    intros Hk Hf Hm Hsm. pose proof Hk as [Hk0 HW]. unfold prepare_permute. rewrite Hf, read_array_items by done. cbn [mbind outcome_bind Z.ltb Z.compare].
    rewrite whole_full. cbn [mbind outcome_bind]. rewrite wrap_small by done. pose proof (Forall2_length _ _ _ Hm) as Hll.
    rewrite (par_do_spec _ _ l' tt).
    2: by rewrite <- Hll.
    2:{ apply settles_all, permute_array_settles; [by rewrite <- Hll|]. intros i v w Hv Hw. by eapply Forall2_lookup_lr in Hm. }
    cbn [mbind outcome_bind]. rewrite write_bin_array_full by lia. by rewrite firstn_all2 by lia.
  Qed.
  Lemma with_ids_again (off : list nat) (nb : nat) (E Es : list (elem T)) : Es ≡ₚ with_ids off nb off nb E -> with_ids off nb off nb Es = Es.
  Proof.
    intros Hp. unfold with_ids at 1. rewrite <- (list_fmap_id Es) at 2. apply list_fmap_ext. intros i e He%elem_of_list_lookup_2.
    rewrite Hp in He. unfold with_ids in He. apply elem_of_list_fmap in He as (e0 & -> & _). done.
  Qed.
  Lemma by_row_by_column (E E1 Er : list (elem T)) x y : coords <$> E1 = coords <$> E -> Er = isort compare_row E1 -> spmv_by_column Er x y = spmv_by_column E1 x y.
  Proof. intros HE ->. apply by_column_rows. intros i. by rewrite row_filter_isort. Qed.

  (** the output files of prepare, for the matrix E1 (in file order, with block ids) *)
  Definition prepared (F' : fs) (out : bytes) (n : nat) (sizes off : list nat) (E1 : list (elem T)) : Prop :=
    let nb := length sizes in
    exists Er Ec fr fc fb fx A B ex, sorted_by_row E1 Er /\ sorted_by_column E1 Ec /\
      F' !! (out ++ str ".row") = Some fr /\ read_bin_COO RT k (Some fr) = Ok (0%Z, Some (raw_of (Coo n n Er))) /\
      F' !! (out ++ str ".col") = Some fc /\ read_bin_COO RT k (Some fc) = Ok (0%Z, Some (raw_of (Coo n n Ec))) /\
      F' !! (out ++ str ".block") = Some fb /\ read_bin_blocked_csbr RT k umax (Some fb) (full off) nb (full off) nb = Ok (0%Z, Some A) /\
      (forall parts x y b, length x = n -> length y = n ->
         all_schedules (csbr_spmv A parts true x b) (heap_of b y) tt (heap_of b (spmv_by_column E1 x y))) /\
      power_of_two B /\ expands off nb B ex /\
      F' !! (out ++ str ".col.exp" ++ print_dec (N.of_nat B)) = Some fx /\
      read_bin_COO RT k (Some fx) = Ok (0%Z, Some (raw_of (Coo (nb * B) (nb * B) (expand_matrix ex Ec)))) /\
      in_range (nb * B) (nb * B) (expand_matrix ex Ec) /\
      (forall x x' y y', spread ex n x x' -> spread ex n y y' -> spread ex n (spmv_in_order Ec x y) (spmv_in_order (expand_matrix ex Ec) x' y')).
  Definition prepare_name (out name : bytes) : Prop :=
    exists s, name = out ++ s /\ (s = str ".row" \/ s = str ".col" \/ s = str ".block" \/ exists B, s = str ".col.exp" ++ print_dec B).
  (** the temporary names are not used for anything else *)
  Definition tmp_free (cols vals sizes out : bytes) : Prop :=
    forall name : bytes, name = cols \/ name = vals \/ name = sizes \/ prepare_name out name -> name <> TMPROWS /\ name <> TMPCOLS.

  Lemma prepare_write_spec (n : nat) (sizes off : list nat) (E0 : list (elem T)) (out : bytes) (F : fs) :
    index_bytes k -> storable RT -> itW = S umax -> (N.of_nat itW <= 10 ^ 20)%N ->
    E0 <> [] -> in_range n n E0 -> sum_list sizes = n -> length sizes <= n -> length sizes * length sizes < itW -> n + 1 < itW -> 2 * (length E0 + 2) < itW ->
    expandable sizes -> size_to_offset (new_arr (length sizes + 1)) (full sizes) (length sizes) = Ok (full off) ->
    no_zero out -> length out <= 227 -> (forall name, prepare_name out name -> name <> TMPROWS /\ name <> TMPCOLS) ->
    exists F', prepare_write RT k (length sizes) (full sizes) (full off) (Coo n n E0) out F = Ok (0%Z, F') /\
      prepared F' out n sizes off (with_ids off (length sizes) off (length sizes) E0) /\
      F' !! TMPROWS = None /\ F' !! TMPCOLS = None /\
      forall name : bytes, ~ prepare_name out name -> name <> TMPROWS -> name <> TMPCOLS -> F' !! name = F !! name.
  Proof.
    intros Hk HR Hu HW I1 I2 I3 I4 I5 I6 I7 Hex Ho0 Hz Hlen Htmp. set (nb := length sizes) in *.
    destruct (C50_expand sizes Hex) as (off' & B & ex & Hb & Hst & Ho & HB & HnB & Hexp & Hmono & Hdiv & _ & Hsch). fold nb in Hb, Ho, HnB, Hexp, Hdiv, Hsch. rewrite I3 in Hb, Hmono.
    assert (off' = off) as ->. { rewrite Ho in Ho0. injection Ho0 as Ho0. by apply full_inj. } clear Ho.
    set (E1 := with_ids off nb off nb E0). set (Er := isort compare_row E1). set (Eb := isort compare_blocks Er). set (Ec := isort compare_col Eb).
    destruct (C11_sort_triplets true E1) as (Er' & HEr & Hsr). rewrite sort_triplets_spec in HEr. injection HEr as <-. fold Er in Hsr. fold (sorted_by_row E1 Er) in Hsr.
    assert (Hsc : sorted_by_column E1 Ec).
    { apply (blocks_then_column E1 (fun r c => block_of off nb r * nb + block_of off nb c)). apply Forall_fmap, Forall_forall. by intros e _. }
    pose proof Hsr as (_ & Hpr & _). pose proof Hsc as (_ & Hpc & _).
    assert (HrE1 : in_range n n E1) by (by apply with_ids_in_range). assert (HlE1 : length E1 = length E0) by (unfold E1, with_ids; by rewrite fmap_length).
    assert (HrEr : in_range n n Er) by (unfold in_range; by rewrite Hpr). assert (HrEc : in_range n n Ec) by (unfold in_range; by rewrite Hpc).
    assert (HlEr : length Er = length E0) by (by rewrite Hpr). assert (HlEc : length Ec = length E0) by (by rewrite Hpc).
    assert (Hfit : forall Es : list (elem T), in_range n n Es -> length Es = length E0 -> fits (Coo n n Es)).
    { intros Es Hin Hl. unfold fits, c_nnz. cbn [c_rows c_cols c_elems]. split; [lia|]. split; [lia|]. split; [lia|]. eapply Forall_impl; [exact Hin|]. intros e []. lia. }
    pose proof (C51_bin_roundtrip RT k _ Hk HR (Hfit Er HrEr HlEr)) as Rr. pose proof (C51_bin_roundtrip RT k _ Hk HR (Hfit Ec HrEc HlEc)) as Rc.
    destruct (expand_fits n nb B off ex Ec HrEc Hb HnB ltac:(lia) Hdiv) as [Hfx Hinx]. pose proof (C51_bin_roundtrip RT k _ Hk HR Hfx) as Rx.
    assert (Hbl : blockable (Coo n n Er) off nb off nb).
    { apply blockable_few. unfold c_nnz. cbn [c_rows c_cols c_elems]. split. { intros He. rewrite He in HlEr. cbn in HlEr. destruct E0; [done|cbn in HlEr; lia]. }
      split; [exact HrEr|]. split; [exact Hb|]. split; [exact Hb|]. lia. }
    assert (Hw : workers_ok (Coo n n Er) 1). { unfold workers_ok, c_nnz. cbn [c_elems]. lia. }
    assert (Hread : exists fb A, make_block_file RT k (Coo n n Er) (full off) nb (full off) nb = Ok fb /\
      read_bin_blocked_csbr RT k umax (Some fb) (full off) nb (full off) nb = Ok (0%Z, Some A) /\
      forall parts x y b, length x = n -> length y = n -> all_schedules (csbr_spmv A parts true x b) (heap_of b y) tt (heap_of b (spmv_by_column E1 x y))).
    { destruct (C56_csbr_roundtrip RT k umax (Coo n n Er) off nb off nb 1 (replicate n s0) (replicate n s0) [] Hk HR Hu Hbl Hw) as (fb & A & parts & B' & G1 & _ & G3 & _);
        [cbn; rewrite replicate_length; lia|cbn; by rewrite replicate_length|].
      exists fb, A. split; [exact G1|]. split; [exact G3|]. intros parts1 x y b Hx Hy.
      destruct (C56_csbr_roundtrip RT k umax (Coo n n Er) off nb off nb 1 x y b Hk HR Hu Hbl Hw) as (fb' & A' & parts' & B2 & K1 & _ & K3 & K4 & _);
        [cbn; lia|cbn; lia|].
      rewrite G1 in K1. injection K1 as <-. rewrite G3 in K3. injection K3 as <-. cbn [c_elems] in K4.
      rewrite <- (by_row_by_column E0 E1 Er x y (with_ids_coords off nb E0) eq_refl). apply K4. }
    destruct Hread as (fb & A & Hmk & Hrb & Hprod).
    unfold make_block_file in Hmk. cbn [c_rows c_cols c_elems] in Hmk. rewrite (calculate_block_id_spec Er off nb off nb n n) in Hmk by first [exact Hb|exact HrEr|lia].
    cbn [mbind outcome_bind] in Hmk. rewrite (with_ids_again off nb E0 Er Hpr), sort_elements_blocks_spec in Hmk. cbn [mbind outcome_bind] in Hmk. fold Eb in Hmk.
    destruct (count_blocks Eb) as [nz| | |] eqn:Hcount; try discriminate Hmk. cbn [mbind outcome_bind] in Hmk. injection Hmk as Hmk.
    set (fr := write_bin_COO RT k (Coo n n Er)) in *. set (fc := write_bin_COO RT k (Coo n n Ec)) in *. set (fx := write_bin_COO RT k (Coo (nb * B) (nb * B) (expand_matrix ex Ec))) in *.
    assert (HBW : B < itW). { destruct (decide (B = 0)) as [->|HB0]; [lia|]. assert (1 <= nb). { unfold nb. destruct Hex as ((s & Hs' & _) & _). destruct sizes; [by apply elem_of_nil in Hs'|cbn; lia]. } nia. }
    set (sx := str ".col.exp" ++ print_dec (N.of_nat B)).
    set (F1 := <[out ++ str ".row" := fr]> F). set (F2 := <[out ++ str ".block" := fb]> F1). set (F3 := <[out ++ str ".col" := fc]> F2). set (F4 := <[out ++ sx := fx]> F3).
    exists (delete TMPROWS (delete TMPCOLS F4)). split.
    { assert (Hn : forall (buf : arr nat) (s : bytes), length buf = 256 -> no_zero s -> length s <= 28 -> forall m, 228 <= m <= 256 ->
        exists buf', output_name buf out m s = Ok (buf', out ++ s) /\ length buf' = 256).
      { intros buf s Hbuf Hzs Hls m Hm. destruct (output_name_spec buf out s m) as (buf' & Hout & Hb'); [exact Hz|exact Hzs|lia|lia|lia|]. exists buf'. split; [exact Hout|lia]. }
      destruct (Hn (new_arr 256) (str ".row")) with (m := 246) as (b1 & N1 & L1); [unfold new_arr; by rewrite replicate_length|by apply no_zero_str|cbn; lia|lia|].
      destruct (Hn b1 (str ".block")) with (m := 246) as (b2 & N2 & L2); [exact L1|by apply no_zero_str|cbn; lia|lia|].
      destruct (Hn b2 (str ".col")) with (m := 246) as (b3 & N3 & L3); [exact L2|by apply no_zero_str|cbn; lia|lia|].
      destruct (Hn b3 sx) with (m := 236) as (b4 & N4 & L4); [exact L3| | |lia|].
      { apply Forall_app_2; [by apply no_zero_str|apply print_dec_no_zero]. }
      { unfold sx. rewrite app_length. pose proof (print_dec_length B itW HBW HW). change (length (str ".col.exp")) with 8. lia. }
      unfold prepare_write. rewrite wrap_small by (unfold nb in *; lia). cbn [c_rows c_cols c_elems].
      rewrite (calculate_block_id_spec E0 off nb off nb n n) by first [exact Hb|exact I2|lia]. cbn [mbind outcome_bind]. fold E1.
      rewrite sort_triplets_spec. cbn [mbind outcome_bind]. fold Er. rewrite N1. cbn [mbind outcome_bind]. fold fr. fold F1.
      rewrite sort_elements_blocks_spec. cbn [mbind outcome_bind]. fold Eb. rewrite Hcount. cbn [mbind outcome_bind]. rewrite N2. cbn [mbind outcome_bind]. rewrite Hmk. fold F2.
      rewrite sort_triplets_spec. cbn [mbind outcome_bind]. fold Ec. rewrite N3. cbn [mbind outcome_bind]. fold fc. fold F3.
      pose proof (expand_write n sizes off E0 Ec B ex I2 Hb Hpc (Hsch T)) as Hew. fold nb in Hew. rewrite Hew. clear Hew. cbn [mbind outcome_bind].
      fold sx. rewrite N4. cbn [mbind outcome_bind]. unfold wmul. rewrite wrap_small by lia. rewrite (Nat.mul_comm B nb). fold fx. fold F4. reflexivity. }
    assert (Hpn : forall s, (s = str ".row" \/ s = str ".col" \/ s = str ".block" \/ exists B, s = str ".col.exp" ++ print_dec B) -> prepare_name out (out ++ s)) by (intros s Hs; by exists s).
    assert (Hdel : forall name, prepare_name out name -> delete TMPROWS (delete TMPCOLS F4) !! name = F4 !! name).
    { intros name Hname. destruct (Htmp name Hname) as [T1 T2]. rewrite !lookup_delete_ne by (intros Heq; by symmetry in Heq). reflexivity. }
    assert (Hsep : forall s t : bytes, s <> t -> out ++ s <> out ++ t) by (intros s t Hst' Heq; apply app_inv_head in Heq; exact (Hst' Heq)).
    assert (Hsx : forall s : bytes, length s < 8 -> sx <> s) by (intros s Hs Heq; unfold sx in Heq; apply (f_equal length) in Heq; rewrite app_length in Heq; change (length (str ".col.exp")) with 8 in Heq; lia).
    split; [|split; [|split]].
    - exists Er, Ec, fr, fc, fb, fx, A, B, ex. split; [exact Hsr|]. split; [exact Hsc|].
      split. { rewrite Hdel by (apply Hpn; by left). unfold F4, F3, F2, F1. rewrite lookup_insert_ne by (apply Hsep, Hsx; cbn; lia). rewrite 2 lookup_insert_ne by (apply Hsep; by vm_compute). apply lookup_insert. }
      split; [exact Rr|].
      split. { rewrite Hdel by (apply Hpn; right; by left). unfold F4, F3. rewrite lookup_insert_ne; [apply lookup_insert|]; apply Hsep, Hsx; cbn; lia. }
      split; [exact Rc|].
      split. { rewrite Hdel by (apply Hpn; right; right; by left). unfold F4, F3, F2. rewrite lookup_insert_ne by (apply Hsep, Hsx; cbn; lia). rewrite lookup_insert_ne by (apply Hsep; by vm_compute). apply lookup_insert. }
      split; [exact Hrb|]. split; [exact Hprod|]. split; [exact HB|]. split; [exact Hexp|].
      split. { rewrite Hdel by (apply Hpn; right; right; right; by eexists). apply lookup_insert. }
      split; [exact Rx|]. split; [exact Hinx|]. intros x x' y y' Hx Hy. by apply spread_product.
    - apply lookup_delete.
    - rewrite lookup_delete_ne by (by vm_compute). apply lookup_delete.
    - intros name Hname T1 T2. rewrite !lookup_delete_ne by (intros Heq; by symmetry in Heq). unfold F4, F3, F2, F1.
      rewrite !lookup_insert_ne; [reflexivity|..]; intros Heq; apply Hname; rewrite <- Heq; apply Hpn; [by left|right; right; by left|right; by left|right; right; right; by eexists].
  Qed.

  (** the input of prepare: three files of a matrix, a permutation of its indices, block sizes *)
  Definition prepare_input (n : nat) (fr fc fv fp fz : bytes) : Prop :=
    blocked_input RT k n fr fc fv fz /\ expandable (items RI fz) /\ items RI fp ≡ₚ seq 0 n /\
    Forall (fun i => i < n) (items RI fr) /\ Forall (fun i => i < n) (items RI fc) /\
    length (items RI fr) < itW /\ length (items RI fc) < itW /\ 2 * (length (file_elements RT k fr fc fv) + 2) < itW.

  Theorem C74_prepare (rows cols vals perm sizes out : bytes) (F : fs) (fr fc fv fp fz : bytes) (n : nat) :
    index_bytes k -> storable RT -> itW = S umax -> (N.of_nat itW <= 10 ^ 20)%N ->
    F !! rows = Some fr -> F !! cols = Some fc -> F !! vals = Some fv -> F !! perm = Some fp -> F !! sizes = Some fz ->
    prepare_input n fr fc fv fp fz -> no_zero out -> length out <= 227 -> tmp_free cols vals sizes out ->
    let nb := length (items RI fz) in
    exists F' off E1, prepare RT k (meant_reader RT k n n) rows cols vals perm sizes out F = Ok (0%Z, F') /\
      size_to_offset (new_arr (nb + 1)) (full (items RI fz)) nb = Ok (full off) /\
      relabelled (items RI fp) (file_elements RT k fr fc fv) E1 /\
      prepared F' out n (items RI fz) off E1 /\
      F' !! TMPROWS = None /\ F' !! TMPCOLS = None /\
      forall name : bytes, ~ prepare_name out name -> name <> TMPROWS -> name <> TMPCOLS -> F' !! name = F !! name.
  Proof.
    intros Hk HR Hu HW H1 H2 H3 H4 H5 (HI & Hex & Hp & Hr & Hc & Lr & Lc & Hnnz) Hz Hlen Htmp nb. pose proof HI as (I1 & I2 & I3 & I4 & I5 & I6 & I7).
    set (E := file_elements RT k fr fc fv) in *. fold nb in I4, I5. pose proof Hk as [Hk0 _].
    destruct (mapped_exists _ _ n Hp Hr) as (lr & Hmr & Hbr). destruct (mapped_exists _ _ n Hp Hc) as (lc & Hmc & Hbc).
    destruct (Htmp cols ltac:(auto)) as [C1 C2]. destruct (Htmp vals ltac:(auto)) as [V1 V2]. destruct (Htmp sizes ltac:(auto)) as [S1 S2].
    set (gr := fwrite RI lr). set (gc := fwrite RI lc).
    assert (Hit : forall l : list nat, Forall (fun i => i < n) l -> items RI (fwrite RI l) = l).
    { intros l Hl. apply items_fwrite, (faithful_RI k Hk). intros v Hv. rewrite Forall_forall in Hl. specialize (Hl v Hv). lia. }
    set (E0 := file_elements RT k gr gc fv).
    assert (Hrel : relabelled (items RI fp) E E0) by (apply relabelled_files; unfold gr, gc; rewrite Hit by assumption; assumption).
    pose proof (relabelled_in_range _ n E E0 Hp Hrel) as HrE0. pose proof (Forall2_length _ _ _ Hrel) as HlE0.
    destruct (offsets_of_sizes (items RI fz)) as (off & Ho & Hb & Hn); [lia|lia|]. fold nb in Ho, Hb, Hn.
    set (F1 := <[TMPROWS := gr]> F). set (F2 := <[TMPCOLS := gc]> F1).
    destruct (prepare_write_spec n (items RI fz) off E0 out F2 Hk HR Hu HW) as (F' & Hrun & Hout & Hd1 & Hd2 & Hoth);
      [intros HE0; rewrite HE0 in HlE0; cbn in HlE0; destruct E; [done|cbn in HlE0; lia]|exact HrE0|exact I3|exact I4|exact I5|exact I6|lia|exact Hex|exact Ho|exact Hz|exact Hlen|intros name Hname; apply Htmp; auto|].
    exists F', off, (with_ids off nb off nb E0). split.
    { unfold prepare. rewrite H4, read_array_items by done. cbn [mbind outcome_bind Z.ltb Z.compare]. rewrite whole_full. cbn [mbind outcome_bind].
      rewrite (prepare_permute_spec rows TMPROWS _ F fr lr Hk H1 Hmr Lr). cbn [mbind outcome_bind]. fold gr. fold F1.
      rewrite (prepare_permute_spec cols TMPCOLS _ F1 fc lc Hk); [|unfold F1; rewrite lookup_insert_ne by (intros Heq; by symmetry in Heq); exact H2|exact Hmc|exact Lc].
      cbn [mbind outcome_bind]. fold gc. fold F2.
      assert (HF2 : forall name : bytes, name <> TMPROWS -> name <> TMPCOLS -> F2 !! name = F !! name).
      { intros name N1 N2. unfold F2, F1. rewrite !lookup_insert_ne by (intros Heq; by symmetry in Heq). reflexivity. }
      rewrite (HF2 sizes S1 S2), H5, read_array_items by done. cbn [mbind outcome_bind Z.ltb Z.compare]. fold nb. rewrite wrap_small by lia. rewrite Ho. cbn [mbind outcome_bind].
      rewrite Hn. cbn [mbind outcome_bind]. rewrite (HF2 vals V1 V2), H3.
      assert (F2 !! TMPROWS = Some gr) as -> by (unfold F2, F1; rewrite lookup_insert_ne by (by vm_compute); apply lookup_insert).
      assert (F2 !! TMPCOLS = Some gc) as -> by (unfold F2; apply lookup_insert).
      cbn [meant_reader mbind outcome_bind Z.ltb Z.compare use]. rewrite coo_of_meant. cbn [mbind outcome_bind]. exact Hrun. }
    split; [exact Ho|]. split; [eapply relabelled_coords; [exact Hrel|apply with_ids_coords]|]. split; [exact Hout|]. split; [exact Hd1|]. split; [exact Hd2|].
    intros name N0 N1 N2. rewrite (Hoth name N0 N1 N2). unfold F2, F1. rewrite !lookup_insert_ne by (intros Heq; by symmetry in Heq). reflexivity.
  Qed.
  (** ... so with exact arithmetic the product of the loaded .block file on permuted vectors is
      the permuted product of the given matrix *)
  Theorem C74_prepare_exact (rows cols vals perm sizes out : bytes) (F : fs) (fr fc fv fp fz : bytes) (n : nat) (one : T) : exact_arith T one ->
    index_bytes k -> storable RT -> itW = S umax -> (N.of_nat itW <= 10 ^ 20)%N ->
    F !! rows = Some fr -> F !! cols = Some fc -> F !! vals = Some fv -> F !! perm = Some fp -> F !! sizes = Some fz ->
    prepare_input n fr fc fv fp fz -> no_zero out -> length out <= 227 -> tmp_free cols vals sizes out ->
    let nb := length (items RI fz) in
    exists F' off fb A, prepare RT k (meant_reader RT k n n) rows cols vals perm sizes out F = Ok (0%Z, F') /\
      size_to_offset (new_arr (nb + 1)) (full (items RI fz)) nb = Ok (full off) /\ F' !! (out ++ str ".block") = Some fb /\
      read_bin_blocked_csbr RT k umax (Some fb) (full off) nb (full off) nb = Ok (0%Z, Some A) /\
      forall parts x x' y y' b, length x = n -> length y = n -> moved (items RI fp) x x' -> moved (items RI fp) y y' ->
        exists z', moved (items RI fp) (y_plus_Ax (file_elements RT k fr fc fv) n x y) z' /\
          all_schedules (csbr_spmv A parts true x' b) (heap_of b y') tt (heap_of b z').
  Proof.
    intros SR Hk HR Hu HW H1 H2 H3 H4 H5 HPI Hz Hlen Htmp nb.
    destruct (C74_prepare rows cols vals perm sizes out F fr fc fv fp fz n Hk HR Hu HW H1 H2 H3 H4 H5 HPI Hz Hlen Htmp) as (F' & off & E1 & Hrun & Ho & Hrel & Hout & _).
    destruct Hout as (Er & Ec & f1 & f2 & fb & fx & A & B & ex & _ & _ & _ & _ & _ & _ & Hfb & Hrb & Hprod & _).
    exists F', off, fb, A. split; [exact Hrun|]. split; [exact Ho|]. split; [exact Hfb|]. split; [exact Hrb|].
    intros parts x x' y y' b Hx Hy Hmx Hmy. set (p := items RI fp) in *. set (E := file_elements RT k fr fc fv) in *.
    destruct HPI as (HI & _ & Hp & _). pose proof HI as (_ & HE & _). fold E in HE. fold p in Hp.
    pose proof (relabelled_in_range p n E E1 Hp Hrel) as HE1.
    exists (y_plus_Ax E1 n x' y'). split.
    - rewrite <- (spmv_in_order_exact one SR n E n) by done. rewrite <- (spmv_in_order_exact one SR n E1 n) by done.
      destruct Hmy as [Hly Hmy]. split; [by rewrite !spmv_in_order_length|]. intros i v Hi. unfold spmv_in_order. rewrite !list_lookup_imap. rewrite (Hmy i v Hi).
      destruct (y !! i) as [a|]; [|done]. cbn. f_equal. by apply (row_acc_relabel p n).
    - rewrite <- (spmv_by_column_exact one SR n) by done. destruct Hmx as [Hlx _]. destruct Hmy as [Hly _]. apply Hprod; lia.
  Qed.
End C74.

(** ** Example: a matrix of order 5, two blocks *)
Definition ex_fs74 : fs :=
  <[str "rows" := [3; 0; 1; 0; 4]]> (<[str "cols" := [0; 2; 1; 2; 4]]> (<[str "vals" := [5; 0; 2; 0; 1; 0; 3; 0; 9; 0]]>
  (<[str "perm" := [2; 0; 1; 4; 3]]> {[str "sizes" := [2; 3]]}))).
Lemma ex_perm5 : [2; 0; 1; 4; 3] ≡ₚ seq 0 5.
Proof.
  apply perm_of_nodup; [done| |].
  - repeat (constructor; [rewrite ?elem_of_cons, elem_of_nil; lia|]). constructor.
  - intros v. rewrite !elem_of_cons, elem_of_nil. lia.
Qed.
Example C74_ex :
  @index_bytes ex_W16 1 /\ storable ex_RZ /\ @itW ex_W16 = S 255 /\ (N.of_nat (@itW ex_W16) <= 10 ^ 20)%N /\
  @prepare_input Z ex_W16 ex_RZ 1 5 [3; 0; 1; 0; 4] [0; 2; 1; 2; 4] [5; 0; 2; 0; 1; 0; 3; 0; 9; 0] [2; 0; 1; 4; 3] [2; 3] /\
  tmp_free (str "cols") (str "vals") (str "sizes") (str "out") /\ exact_arith Z 1%Z /\
  match @prepare Z ex_W16 ex_RZ 1 (meant_reader ex_RZ 1 5 5) (str "rows") (str "cols") (str "vals") (str "perm") (str "sizes") (str "out") ex_fs74 with
  | Ok (code, F') => code = 0%Z /\
      F' !! str "out.row" = Some [5; 5; 5;  0; 2; 2; 3; 4;  0; 1; 1; 3; 2;  1; 0; 2; 0; 3; 0; 9; 0; 5; 0] /\
      F' !! str "out.block" = Some [5; 5; 5; 2; 2; 3;  0; 0; 0; 1; 0;  2; 2; 1; 2; 0;  2; 2; 1; 3; 0;  3; 3; 3; 9; 0;  3; 4; 2; 5; 0] /\
      F' !! str "out.col.exp4" = Some [8; 8; 5;  0; 4; 4; 6; 5;  0; 1; 1; 4; 5;  1; 0; 2; 0; 3; 0; 5; 0; 9; 0] /\ F' !! TMPROWS = None
  | _ => False
  end.
Proof.
  split; [split; [lia|done]|]. split; [exact ex_RZ_storable|]. split; [done|]. split; [vm_compute; discriminate|]. split; [|split; [|split; [apply exact_Z|]]].
  - split; [|split; [|split; [exact ex_perm5|]]].
    + unfold blocked_input. vm_compute. repeat split; try lia; try done; repeat constructor; lia.
    + split; [exists 2; split; [vm_compute; left|lia]|]. split; [intros s Hs; change (s ∈ [2; 3]) in Hs; rewrite !elem_of_cons, elem_of_nil in Hs; lia|].
      split; [vm_compute; lia|]. exists 4. split; [by exists 2|]. split; [vm_compute; lia|]. intros s Hs. change (s ∈ [2; 3]) in Hs. rewrite !elem_of_cons, elem_of_nil in Hs. lia.
    + vm_compute. repeat split; try lia; repeat constructor; lia.
  - assert (G : forall name : bytes, nth 0 name 0 <> 47 -> name <> TMPROWS /\ name <> TMPCOLS) by (intros name Hn; split; intros ->; by apply Hn).
    intros name [->|[->|[->|(s & -> & _)]]]; apply G; by vm_compute.
  - vm_compute. repeat split; reflexivity.
Qed.
