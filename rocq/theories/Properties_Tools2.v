(** Properties_Tools2.v: C69, C71, C72, C73: the tools convert_blocked, permute, convert, sort.
    [items]: see Properties_Tools.v.  The reader of three files which convert_blocked,
    convert and sort call is undefined on every input (C54_generic_refuted), so these tools
    are as well; the other theorems are about the same tools with the reader its comment
    describes, [meant_reader]. *)
From Verif Require Import ToolsProof IoProof PermuteProof ParCells CsbrProof Csbr2Proof BlockIoProof Properties_Utils Properties_Simple Properties_Blocked Properties_Permute Properties_Expand Properties_Io Properties_BlockIo Properties_Mm2 Properties_Tools.
From Coq Require Import ZifyNat ZifyBool.

(** the matrix in three files *)
Definition file_elements {T} (RT : repr T) (k : nat) (fr fc fv : bytes) : list (elem T) :=
  (fun '(r, (c, v)) => Elem r c v 0) <$> zip (items (index_repr k) fr) (zip (items (index_repr k) fc) (items RT fv)).
(** include/io/input.h:195-200: reads the matrix from three files, 0 if successful, a
    negative number otherwise *)
Definition meant_reader {T} (RT : repr T) (k rows cols : nat) (fr fc fv : option bytes) : outcome (Z * option (rawcoo T)) :=
  match fr, fc, fv with
  | Some fr, Some fc, Some fv =>
      Ok (0%Z, Some (RawCoo rows cols (length (items RT fv)) (full (items (index_repr k) fr)) (full (items (index_repr k) fc)) (full (items RT fv))))
  | _, _, _ => Ok ((-1)%Z, None)
  end.
(** the three files hold equally many items *)
Definition same_counts {T} (RT : repr T) (k : nat) (fr fc fv : bytes) : Prop :=
  length (items (index_repr k) fr) = length (items RT fv) /\ length (items (index_repr k) fc) = length (items RT fv).

Lemma coo_of_meant {T} (RT : repr T) (k rows cols n : nat) (fr fc fv : bytes) :
  coo_of_raw (RawCoo rows cols n (full (items (index_repr k) fr)) (full (items (index_repr k) fc)) (full (items RT fv))) =
    Ok (Coo rows cols (file_elements RT k fr fc fv)).
Proof. unfold coo_of_raw. cbn [Io.r_row Io.r_col Io.r_val Io.r_rows Io.r_cols]. by rewrite !whole_full. Qed.
Lemma read_array_items {A} (R : repr A) (f : bytes) : 0 < sz R -> read_bin_array R (Some f) = Ok (0%Z, length (items R f), full (items R f)).
Proof.
  intros Hs. unfold read_bin_array, get_file_size. cbn [mbind outcome_bind]. rewrite div_ok by done. cbn [mbind outcome_bind].
  destruct (items_fread R f (length f / sz R) Hs ltac:(done)) as [f' ->]. rewrite firstn_all2 by (by rewrite items_length).
  rewrite items_length, Nat.ltb_irrefl, Nat.sub_diag. unfold new_arr. cbn [replicate]. by rewrite app_nil_r.
Qed.
Lemma offsets_of_sizes `{Widths} (sizes : list nat) : S (length sizes) < itW -> sum_list sizes < itW ->
  exists off, size_to_offset (new_arr (length sizes + 1)) (full sizes) (length sizes) = Ok (full off) /\
    blocking off (length sizes) (sum_list sizes) /\ aget (full off) (length sizes) = Ok (sum_list sizes).
Proof.
  intros H1 H2. destruct (C07_blocking sizes (new_arr (length sizes + 1))) as (off & Ho & Hb); [unfold new_arr; rewrite replicate_length; lia|done|].
  exists off. split; [done|]. split; [done|]. destruct Hb as (Hl & _ & Hn & _). rewrite aget_full. apply lget_some.
  destruct (lookup_lt_is_Some_2 off (length sizes)) as [v Hv]; [lia|]. rewrite Hv. f_equal. rewrite <- Hn. symmetry. by apply nth_lookup_Some.
Qed.

(** ** C69 *)
Section C69.
  Context {T : Type} `{Scalar T} `{Widths} (RT : repr T) (k umax : nat).
  Implicit Types (x y : list T) (b : buf).

  (** as written the tool never gets past reading *)
  Theorem C69_as_written_refuted (forgiving : bool) (counter0 : option nat) (rows cols vals sizes out : bytes) (F : fs) (fr fc fv fz : bytes) :
    0 < k -> 0 < sz RT -> F !! rows = Some fr -> F !! cols = Some fc -> F !! vals = Some fv -> F !! sizes = Some fz ->
    S (length (items (index_repr k) fz)) < itW -> sum_list (items (index_repr k) fz) < itW ->
    exists u, convert_blocked RT k (read_bin_COO3_generic RT k forgiving counter0) rows cols vals sizes out F = Undef u.
  Proof.
    intros Hk Hs H1 H2 H3 H4 H5 H6. unfold convert_blocked. rewrite H4, read_array_items by done. cbn [mbind outcome_bind Z.ltb Z.compare].
    rewrite wrap_small by lia. destruct (offsets_of_sizes _ H5 H6) as (off & Ho & _ & Hn). rewrite Ho. cbn [mbind outcome_bind].
    rewrite Hn. cbn [mbind outcome_bind]. rewrite H1, H2, H3.
    destruct (C54_generic_refuted RT k forgiving counter0 fr fc fv Hs) as [u ->]. by exists u.
  Qed.

  Definition blocked_input (n : nat) (fr fc fv fz : bytes) : Prop :=
    let E := file_elements RT k fr fc fv in let sizes := items (index_repr k) fz in
    E <> [] /\ in_range n n E /\ sum_list sizes = n /\ length sizes <= n /\ length sizes * length sizes < itW /\ n + 1 < itW /\ length E < itW.
  Lemma blocked_input_blockable n fr fc fv fz off : blocked_input n fr fc fv fz -> blocking off (length (items (index_repr k) fz)) n ->
    blockable (Coo n n (file_elements RT k fr fc fv)) off (length (items (index_repr k) fz)) off (length (items (index_repr k) fz)).
  Proof. intros (H1 & H2 & H3 & H4 & H5 & H6 & H7) Hb. unfold blockable, c_nnz. cbn [c_rows c_cols c_elems].
    split; [done|]. split; [done|]. split; [done|]. split; [done|]. split; [lia|]. split; [lia|].
    split; [by eapply numbered_small|]. split; [lia|]. split; [lia|done]. Qed.
  Lemma convert_blocked_run (rows cols vals sizes out : bytes) (F : fs) (fr fc fv fz : bytes) n d1 d2 :
    0 < k -> F !! rows = Some fr -> F !! cols = Some fc -> F !! vals = Some fv -> F !! sizes = Some fz ->
    blocked_input n fr fc fv fz ->
    exists off, size_to_offset (new_arr (length (items (index_repr k) fz) + 1)) (full (items (index_repr k) fz)) (length (items (index_repr k) fz)) = Ok (full off) /\
      blocking off (length (items (index_repr k) fz)) n /\
      convert_blocked RT k (meant_reader RT k d1 d2) rows cols vals sizes out F =
      (file ← make_block_file RT k (Coo d1 d2 (file_elements RT k fr fc fv)) (full off) (length (items (index_repr k) fz)) (full off) (length (items (index_repr k) fz));
       Ok (0%Z, <[out := file]> F)).
  Proof.
    intros Hk H1 H2 H3 H4 HI. pose proof HI as (I1 & I2 & I3 & I4 & I5 & I6 & I7).
    destruct (offsets_of_sizes (items (index_repr k) fz)) as (off & Ho & Hb & Hn); [lia|lia|]. rewrite I3 in Hb.
    exists off. split; [done|]. split; [done|]. unfold convert_blocked. rewrite H4, read_array_items by done. cbn [mbind outcome_bind Z.ltb Z.compare].
    rewrite wrap_small by lia. rewrite Ho. cbn [mbind outcome_bind]. rewrite Hn. cbn [mbind outcome_bind]. rewrite H1, H2, H3.
    cbn [meant_reader mbind outcome_bind Z.ltb Z.compare use]. rewrite coo_of_meant. done.
  Qed.

  (** with the reader it was meant to have (which sets the dimensions to those of the
      blocking), the tool writes a file that both readers accept and whose product is that of
      the elements of the three files *)
  Theorem C69_pipeline (rows cols vals sizes out : bytes) (F : fs) (fr fc fv fz : bytes) n workers x y b :
    index_bytes k -> storable RT -> itW = S umax ->
    F !! rows = Some fr -> F !! cols = Some fc -> F !! vals = Some fv -> F !! sizes = Some fz ->
    blocked_input n fr fc fv fz -> 0 < workers -> 2 * workers < itW -> 2 * (length (file_elements RT k fr fc fv) + 2) < itW ->
    length x = n -> length y = n ->
    let E := file_elements RT k fr fc fv in let nb := length (items (index_repr k) fz) in
    exists F' file off A A2, convert_blocked RT k (meant_reader RT k n n) rows cols vals sizes out F = Ok (0%Z, F') /\
      F' !! out = Some file /\ (forall name, name <> out -> F' !! name = F !! name) /\
      size_to_offset (new_arr (nb + 1)) (full (items (index_repr k) fz)) nb = Ok (full off) /\
      read_bin_blocked_csbr RT k umax (Some file) (full off) nb (full off) nb = Ok (0%Z, Some A) /\
      read_bin_blocked_csbr2 RT k umax (Some file) (full off) nb (full off) nb = Ok (0%Z, Some A2) /\
      (forall parts, all_schedules (csbr_spmv A parts true x b) (heap_of b y) tt (heap_of b (spmv_by_column E x y))) /\
      all_schedules (csbr2_spmv A2 x b) (heap_of b y) tt (heap_of b (spmv_by_column E x y)).
  Proof.
    intros Hk HR Hu H1 H2 H3 H4 HI W1 W2 W3 Hx Hy E nb. pose proof Hk as [Hk0 _].
    destruct (convert_blocked_run rows cols vals sizes out F fr fc fv fz n n n Hk0 H1 H2 H3 H4 HI) as (off & Ho & Hb & Hrun). fold nb in Ho, Hb, Hrun. fold E in Hrun.
    pose proof (blocked_input_blockable n fr fc fv fz off HI Hb) as HB. fold E nb in HB.
    assert (HW : workers_ok (Coo n n E) workers) by (repeat split; done).
    destruct (C56_csbr_roundtrip RT k umax (Coo n n E) off nb off nb workers x y b Hk HR Hu HB HW) as (file & A & parts & B' & G1 & G2 & G3 & G4 & _); [cbn; lia|cbn; lia|].
    destruct (C56_csbr2_roundtrip RT k umax (Coo n n E) off nb off nb x y b Hk HR Hu HB) as (file' & A2 & B2 & K1 & K2 & K3 & K4 & _); [cbn; lia|cbn; lia|].
    assert (file' = file) as -> by congruence. rewrite G1 in Hrun. cbn [mbind outcome_bind] in Hrun.
    exists (<[out := file]> F), file, off, A, A2. split; [done|]. rewrite lookup_insert. split; [done|]. split; [intros name Hne; by apply lookup_insert_ne|].
    done.
  Qed.
  Theorem C69_pipeline_exact (rows cols vals sizes out : bytes) (F : fs) (fr fc fv fz : bytes) n workers x y b (one : T) : exact_arith T one ->
    index_bytes k -> storable RT -> itW = S umax ->
    F !! rows = Some fr -> F !! cols = Some fc -> F !! vals = Some fv -> F !! sizes = Some fz ->
    blocked_input n fr fc fv fz -> 0 < workers -> 2 * workers < itW -> 2 * (length (file_elements RT k fr fc fv) + 2) < itW ->
    length x = n -> length y = n ->
    let E := file_elements RT k fr fc fv in let nb := length (items (index_repr k) fz) in
    exists F' file off A, convert_blocked RT k (meant_reader RT k n n) rows cols vals sizes out F = Ok (0%Z, F') /\
      F' !! out = Some file /\ size_to_offset (new_arr (nb + 1)) (full (items (index_repr k) fz)) nb = Ok (full off) /\
      read_bin_blocked_csbr RT k umax (Some file) (full off) nb (full off) nb = Ok (0%Z, Some A) /\
      forall parts, all_schedules (csbr_spmv A parts true x b) (heap_of b y) tt (heap_of b (y_plus_Ax E n x y)).
  Proof.
    intros SR Hk HR Hu H1 H2 H3 H4 HI W1 W2 W3 Hx Hy E nb.
    destruct (C69_pipeline rows cols vals sizes out F fr fc fv fz n workers x y b Hk HR Hu H1 H2 H3 H4 HI W1 W2 W3 Hx Hy) as (F' & file & off & A & A2 & G1 & G2 & _ & G3 & G4 & _ & G5 & _).
    exists F', file, off, A. split; [done|]. split; [done|]. split; [done|]. split; [done|]. intros parts.
    rewrite <- (spmv_by_column_exact one SR n) by apply HI. apply G5.
  Qed.
  (** a reader that sets other dimensions (the actual one leaves them to chance) makes a file
      that no reader accepts *)
  Theorem C69_dimensions_refuted (rows cols vals sizes out : bytes) (F : fs) (fr fc fv fz : bytes) n d1 d2 :
    index_bytes k -> F !! rows = Some fr -> F !! cols = Some fc -> F !! vals = Some fv -> F !! sizes = Some fz ->
    blocked_input n fr fc fv fz -> d1 <> n \/ d2 <> n -> d1 < itW -> d2 < itW ->
    let nb := length (items (index_repr k) fz) in
    exists F' file off, convert_blocked RT k (meant_reader RT k d1 d2) rows cols vals sizes out F = Ok (0%Z, F') /\ F' !! out = Some file /\
      size_to_offset (new_arr (nb + 1)) (full (items (index_repr k) fz)) nb = Ok (full off) /\
      read_bin_blocked_csbr RT k umax (Some file) (full off) nb (full off) nb = Abort /\
      read_bin_blocked_csbr2 RT k umax (Some file) (full off) nb (full off) nb = Abort.
  Proof.
    intros Hk H1 H2 H3 H4 HI Hd Hd1 Hd2 nb. pose proof Hk as [Hk0 _]. pose proof HI as (I1 & I2 & I3 & I4 & I5 & I6 & I7).
    destruct (convert_blocked_run rows cols vals sizes out F fr fc fv fz n d1 d2 Hk0 H1 H2 H3 H4 HI) as (off & Ho & Hb & Hrun). fold nb in Ho, Hb, Hrun.
    pose proof (blocked_input_blockable n fr fc fv fz off HI Hb) as HB. fold nb in HB. set (E := file_elements RT k fr fc fv) in *.
    pose proof (blockable_small (Coo n n E) off nb off nb HB) as (N1 & N2 & N3 & N4 & N5). cbn [c_elems] in N3.
    pose proof (sorted_record_fits (Coo n n E) off nb off nb HB) as Hfit. cbn [c_elems] in Hfit.
    assert (Hfile : make_block_file RT k (Coo d1 d2 E) (full off) nb (full off) nb =
      Ok (write_bin_blocked RT k (Coo d1 d2 (bsorted off nb off nb E)) nb nb (length (bids off nb off nb E)))).
    { unfold make_block_file. cbn [c_rows c_cols c_elems]. rewrite (calculate_block_id_spec E off nb off nb n n) by (done || lia). cbn [mbind outcome_bind].
      rewrite sort_elements_blocks_spec. cbn [mbind outcome_bind]. fold (bsorted off nb off nb E). rewrite count_bids by done. done. }
    rewrite Hfile in Hrun. cbn [mbind outcome_bind] in Hrun. eexists _, _, off. split; [exact Hrun|]. rewrite lookup_insert. split; [done|]. split; [done|].
    pose proof Hb as (Hl & _ & Hn & _). pose proof (bsorted_length off nb off nb E) as Hlen.
    assert (Hlast : off !! nb = Some n). { destruct (lookup_lt_is_Some_2 off nb) as [v Hv]; [lia|]. rewrite Hv. f_equal. rewrite <- Hn. symmetry. by apply nth_lookup_Some. }
    apply C56_other_blocking; try done; try lia.
    - unfold fits, c_nnz. cbn [c_rows c_cols c_elems]. split; [done|]. split; [done|]. split; [lia|].
      eapply Forall_impl; [exact Hfit|]. intros e He. unfold record_fits in He. lia.
    - cbn [c_rows c_cols]. right. right. rewrite Hlast. destruct Hd as [Hd|Hd]; [left|right]; congruence.
  Qed.
End C69.
Definition ex_fs69 : fs :=
  <[str "rows" := [3; 0; 1; 0]]> (<[str "cols" := [0; 2; 1; 2]]> (<[str "vals" := [5; 0; 2; 0; 1; 0; 3; 0]]> {[str "sizes" := [2; 2]]})).
Example C69_ex :
  @index_bytes ex_W16 1 /\ storable ex_RZ /\ @itW ex_W16 = S 255 /\
  @blocked_input Z ex_W16 ex_RZ 1 4 [3; 0; 1; 0] [0; 2; 1; 2] [5; 0; 2; 0; 1; 0; 3; 0] [2; 2] /\
  file_elements ex_RZ 1 [3; 0; 1; 0] [0; 2; 1; 2] [5; 0; 2; 0; 1; 0; 3; 0] = [Elem 3 0 5%Z 0; Elem 0 2 2%Z 0; Elem 1 1 1%Z 0; Elem 0 2 3%Z 0] /\
  match @convert_blocked Z ex_W16 ex_RZ 1 (meant_reader ex_RZ 1 4 4) (str "rows") (str "cols") (str "vals") (str "sizes") (str "out") ex_fs69 with
  | Ok (code, F') => code = 0%Z /\ F' !! str "out" = Some [4; 4; 4; 2; 2; 3;  0; 1; 1; 1; 0;  1; 0; 2; 2; 0;  1; 0; 2; 3; 0;  2; 3; 0; 5; 0]
  | _ => False
  end.
Proof.
  split; [split; [lia|done]|]. split; [exact ex_RZ_storable|]. split; [done|]. split.
  { unfold blocked_input. vm_compute. repeat split; try lia; try done; repeat constructor; lia. }
  split; [vm_compute; reflexivity|]. vm_compute. split; reflexivity.
Qed.
