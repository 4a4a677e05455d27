(** Properties_Range.v: C91, C92, coordinates that do not lie inside the matrix or the vectors.
    No reader and no constructor of the simple formats compares an index with the dimensions.

    [always_undefined p h] (RangeProof.v): every execution of p from heap h ends, none of them
    normally: each stops where some thread is about to do something undefined (here: to access
    an array outside its bounds). *)
From Verif Require Import RangeProof Properties_Io Properties_Mm Properties_Mm2 Properties_Simple.
From Coq Require Import ZifyNat ZifyBool ZifyN.

Section C91.
  Context {T : Type} `{Scalar T} `{Widths}.
  Implicit Types (B : coo T) (E : list (elem T)) (x y : list T) (b : buf).

  (** ** C91: the product of a coordinate matrix is defined exactly when every index lies
      inside the vectors that are passed, whatever the dimensions stored with the matrix *)
  Theorem C91_coo_inside B x y b : in_range (length y) (length x) (c_elems B) ->
    all_schedules (coo_spmv B x b) (heap_of b y) tt (heap_of b (spmv_in_order (c_elems B) x y)).
  Proof.
    intros HB. apply (C15_coo_spmv (Coo (length y) (length x) (c_elems B))); done.
  Qed.
  Theorem C91_coo_outside B x y b : ~ in_range (length y) (length x) (c_elems B) ->
    always_undefined (coo_spmv B x b) (heap_of b y).
  Proof. intros HB. by apply coo_aos_undefined. Qed.
  Theorem C91_coo_defined_iff B x y b :
    (exists y', all_schedules (coo_spmv B x b) (heap_of b y) tt (heap_of b y')) <-> in_range (length y) (length x) (c_elems B).
  Proof.
    split; [|intros HB; eexists; by apply C91_coo_inside].
    intros [y' Hy]. unfold in_range. destruct (Forall_dec (fun e : elem T => row e < length y /\ col e < length x) (c_elems B)) as [HB|HB]; [done|].
    exfalso. eapply always_undefined_not_defined; [|exact Hy]. by apply C91_coo_outside.
  Qed.
  (** the same for the three-array layout, in particular for the arrays a reader has filled *)
  Definition product_of_arrays (A : rawcoo T) x b : prog T unit := coo1_spmv (Coo1 (r_nnz A) (r_row A) (r_col A) (r_val A)) x 0 b 0.
  Lemma raw_holds_rep (A : rawcoo T) B : raw_holds A B -> coo_rep (r_val A) (r_row A) (r_col A) 0 (c_elems B) /\ r_nnz A = c_nnz B.
  Proof.
    intros (_ & _ & Hn & H1 & H2 & H3). split; [|done]. intros k e Hk. cbn [Nat.add]. pose proof (lookup_lt_Some _ _ _ Hk) as Hl.
    assert (Hget : forall (C : Type) (a : arr C) (f : elem T -> C), take (c_nnz B) a = full (f <$> c_elems B) -> aget a k = Ok (f e)).
    { intros C a f Ha. unfold aget. rewrite <- (lookup_take a (c_nnz B)) by done. rewrite Ha, full_lookup, list_lookup_fmap, Hk. done. }
    split; [by apply Hget|]. split; by apply Hget.
  Qed.
  Theorem C91_arrays (A : rawcoo T) B x y b : raw_holds A B ->
    (in_range (length y) (length x) (c_elems B) ->
       all_schedules (product_of_arrays A x b) (heap_of b y) tt (heap_of b (spmv_in_order (c_elems B) x y))) /\
    (~ in_range (length y) (length x) (c_elems B) -> always_undefined (product_of_arrays A x b) (heap_of b y)).
  Proof.
    intros Ha. apply raw_holds_rep in Ha as [Hrep Hn]. unfold product_of_arrays, coo1_spmv. cbn [k_nnz k_I k_J k_val]. rewrite Hn. split; intros HB.
    - apply (performs_vector _ b y (fun _ => False)); [|by intros []].
      pose proof (performs_spmv_coo _ _ _ 0 (c_elems B) (length y) (length x) x 0 b 0 (fun _ => False) Hrep HB ltac:(done)) as Hp.
      rewrite drop_0 in Hp. exact Hp.
    - by apply coo_soa_undefined.
  Qed.
  (** a binary file whose indices do not lie inside the matrix it describes is read without
      complaint, and the first product with vectors of the matrix's size is undefined *)
  Theorem C91_bin_unchecked (RT : repr T) (k : nat) B : index_bytes k -> storable RT -> Properties_Io.fits B ->
    ~ in_range (c_rows B) (c_cols B) (c_elems B) ->
    exists A, read_bin_COO RT k (Some (write_bin_COO RT k B)) = Ok (0%Z, Some A) /\ raw_holds A B /\
      forall x y b, length x = c_cols B -> length y = c_rows B -> always_undefined (product_of_arrays A x b) (heap_of b y).
  Proof.
    intros Hk HR HB Hno. eexists. split; [by apply C51_bin_roundtrip|].
    assert (Hh : raw_holds (raw_of B) B).
    { unfold raw_holds, raw_of, c_nnz. cbn [r_rows r_cols r_nnz r_row r_col r_val]. repeat (split; [done|]).
      rewrite !take_ge by (rewrite full_length, fmap_length; done). done. }
    split; [exact Hh|]. intros x y b Hx Hy. apply (C91_arrays _ B); [exact Hh|]. by rewrite Hx, Hy.
  Qed.
  (** Matrix Market files: any numbers are accepted; n is stored as n - 1, modulo the number of
      values of the index type, so the number 0 becomes the largest index *)
  Definition wrapped (e : N * N * T) : elem T :=
    Elem (N.to_nat ((e.1.1 + N.of_nat itW - 1) mod N.of_nat itW)) (N.to_nat ((e.1.2 + N.of_nat itW - 1) mod N.of_nat itW)) e.2 0.
  Lemma index_of_wrapped r : 1 < itW -> index_of r = N.to_nat ((r + N.of_nat itW - 1) mod N.of_nat itW).
  Proof.
    intros Hw. unfold index_of, wsub, wrap.
    rewrite <- (Nat2N.id ((N.to_nat (r mod N.of_nat itW) + (itW - 1)) mod itW)). f_equal. rewrite Nat2N.inj_mod, Nat2N.inj_add, N2Nat.id.
    rewrite N.add_mod_idemp_l by lia. f_equal. lia.
  Qed.
  Theorem C91_mm_unchecked (scan_g : bytes -> option T * bytes) fuel t nr nc nnz h (l : list (N * N * T)) f rest : 1 < itW ->
    mm_header t nr nc nnz h -> mm_is_complex t = false -> mm_is_coordinate t = true -> mm_is_symmetric t = false ->
    (0 <= nr < Z.of_nat itW)%Z -> (0 <= nc < Z.of_nat itW)%Z -> (0 <= nnz < Z.of_nat itW)%Z ->
    entries_text scan_g l f rest -> Forall (fun e => (e.1.1 <= ulong_max /\ e.1.2 <= ulong_max)%N) l ->
    length l <= Z.to_nat nnz -> (length l < Z.to_nat nnz -> spaces rest) ->
    exists A, read_mm_COO scan_g fuel (Some (h ++ f)) = Ok (0%Z, Some A) /\
      raw_holds A (Coo (Z.to_nat nr) (Z.to_nat nc) (wrapped <$> l)) /\
      (~ in_range (Z.to_nat nr) (Z.to_nat nc) (wrapped <$> l) ->
       forall x y b, length x = Z.to_nat nc -> length y = Z.to_nat nr -> always_undefined (product_of_arrays A x b) (heap_of b y)).
  Proof.
    intros Hw Hh Hx Hc Hs Hr1 Hr2 Hr3 He Hi Hle Hlt. rewrite (read_header scan_g fuel t nr nc nnz) by done. rewrite Hx, Hc, Hs. cbn [negb orb mbind outcome_bind].
    rewrite !int_to_index_small by done.
    assert (Hst : flat_map (Mm2Proof.stored false) l = wrapped <$> l).
    { clear -Hw. induction l as [|e l IH]; [done|]. cbn [flat_map fmap list_fmap]. unfold list_fmap in IH. rewrite IH. unfold Mm2Proof.stored, wrapped. by rewrite !index_of_wrapped. }
    rewrite (data_pass_spec scan_g false _ l f rest); [|done|done|rewrite Hst, fmap_length..]; [|done|done].
    rewrite Hst. cbn [mbind outcome_bind parts]. eexists. split; [done|].
    assert (Hraw : raw_holds (RawCoo (Z.to_nat nr) (Z.to_nat nc) (length (wrapped <$> l)) (part (row <$> (wrapped <$> l)) (Z.to_nat nnz))
              (part (col <$> (wrapped <$> l)) (Z.to_nat nnz)) (part (val <$> (wrapped <$> l)) (Z.to_nat nnz))) (Coo (Z.to_nat nr) (Z.to_nat nc) (wrapped <$> l)))
      by (apply raw_holds_parts; by rewrite fmap_length).
    split; [exact Hraw|]. intros Hno x y b Hxl Hyl. apply (C91_arrays _ _ x y b Hraw). cbn [c_elems]. by rewrite Hxl, Hyl.
  Qed.

  (** ** C92: compressed sparse rows *)
  (** indices of rows are fine, some column does not exist in x: the construction succeeds, all
      four products are undefined on every schedule *)
  Theorem C92_csr_columns B x y b : Forall (fun e => row e < c_rows B) (c_elems B) -> c_rows B + 1 < itW -> c_nnz B < itW ->
    Exists (fun e => length x <= col e) (c_elems B) ->
    exists A B', Coo_to_Csr B = Ok (A, B') /\ csr_nonzeros A = Ok (c_nnz B) /\
      always_undefined (csr_spmv A x b) (heap_of b y) /\ always_undefined (csr_spmv_serial A x b) (heap_of b y) /\
      always_undefined (csr2_spmv A x b) (heap_of b y) /\ always_undefined (csr2_spmv_serial A x b) (heap_of b y).
  Proof.
    intros HE Hr Hn Hx. set (L := isort compare_row (c_elems B)).
    assert (HL : L ≡ₚ c_elems B) by apply isort_perm.
    assert (HLr : Forall (fun e => row e < c_rows B) L) by (by rewrite HL).
    eexists _, _. split.
    { unfold Coo_to_Csr. rewrite sort_triplets_spec. cbn [mbind outcome_bind]. fold L. rewrite csr_build_spec; [|done|done|unfold L; by rewrite isort_length].
      cbn [mbind outcome_bind]. reflexivity. }
    split. { unfold csr_nonzeros. cbn [csr_ptr csr_rows]. rewrite ptrs_get by lia. rewrite cntlt_all, fmap_length by (by apply Forall_fmap). unfold L. by rewrite isort_length. }
    apply Exists_exists in Hx as (e & He & Hc). rewrite <- HL in He.
    pose proof (csr_build_rep (fun c => c) L (c_rows B) (ksorted_isort_row _) ltac:(by apply Forall_true)) as Hrep.
    assert (Hin : e ∈ bfilter (in_row (row e)) L).
    { apply elem_of_list_In, filter_In. split; [by apply elem_of_list_In|]. unfold in_row. apply Nat.eqb_refl. }
    rewrite Forall_forall in HLr. pose proof (HLr _ He) as Hre. cbv beta in Hre.
    unfold csr_spmv, csr_spmv_serial, csr2_spmv, csr2_spmv_serial. cbn [csr_ptr csr_ind csr_vals csr_rows].
    split; [by eapply csr_undefined|]. split; [by eapply csr_serial_undefined|]. split; [by eapply csr2_undefined|by eapply csr2_serial_undefined].
  Qed.
  (** a row index that is not a row, nor the largest value of the index type: the construction
      writes outside its array of row pointers *)
  Theorem C92_csr_rows B : c_rows B + 1 < itW -> c_nnz B < itW -> Forall (fun e => row e < itW) (c_elems B) ->
    Exists (fun e => c_rows B <= row e /\ row e < itW - 1) (c_elems B) -> Coo_to_Csr B = Undef OutOfBounds.
  Proof.
    intros Hr Hn Hw Hx. unfold Coo_to_Csr. rewrite sort_triplets_spec. cbn [mbind outcome_bind].
    pose proof (isort_perm compare_row (c_elems B)) as Hp.
    rewrite csr_build_outside; [done|done|by rewrite isort_length| |].
    - by rewrite Hp.
    - apply Exists_exists in Hx as (e & He & H1 & H2). apply Exists_exists. exists e. rewrite Hp. split; [done|]. lia.
  Qed.
  (** the largest value of the index type (a row number 0 in a Matrix Market file): the
      construction succeeds and passes its own check, but every row reads the sorted elements
      from too far on, by as many positions as there are such elements *)
  Definition misread E i : list (elem T) :=
    let L := isort compare_row E in
    let k := length (bfilter (fun e => row e =? itW - 1) E) in
    take (length (bfilter (in_row i) E)) (drop (k + length (bfilter (fun e => row e <? i) E)) L).
  Lemma misread_shifted E i : misread E i = shifted_row (isort compare_row E) i.
  Proof.
    unfold misread, shifted_row, slice. pose proof (isort_perm compare_row E) as Hp.
    rewrite !(cnteq_fmap row), (cntlt_fmap row). rewrite !(Permutation_length (bfilter_perm _ _ _ Hp)). done.
  Qed.
  Theorem C92_csr_last_index B x y b : c_rows B + 1 < itW -> c_nnz B < itW ->
    Forall (fun e => row e < c_rows B \/ row e = itW - 1) (c_elems B) -> Forall (fun e => col e < length x) (c_elems B) -> length y = c_rows B ->
    exists A B', Coo_to_Csr B = Ok (A, B') /\ csr_nonzeros A = Ok (c_nnz B) /\
      let y' := imap (fun i yi => fold_left (accum x) (misread (c_elems B) i) yi) y in
      all_schedules (csr_spmv A x b) (heap_of b y) tt (heap_of b y') /\ all_schedules (csr_spmv_serial A x b) (heap_of b y) tt (heap_of b y') /\
      all_schedules (csr2_spmv A x b) (heap_of b y) tt (heap_of b y') /\ all_schedules (csr2_spmv_serial A x b) (heap_of b y) tt (heap_of b y').
  Proof.
    intros Hr Hn HE Hx Hy. set (L := isort compare_row (c_elems B)).
    assert (HL : L ≡ₚ c_elems B) by apply isort_perm.
    assert (HLr : Forall (wild_row (c_rows B)) L) by (unfold wild_row; by rewrite HL).
    eexists _, _. split.
    { unfold Coo_to_Csr. rewrite sort_triplets_spec. cbn [mbind outcome_bind]. fold L. rewrite csr_build_wild; [|done|done|unfold L; by rewrite isort_length].
      cbn [mbind outcome_bind]. reflexivity. }
    split. { unfold csr_nonzeros. cbn [csr_ptr csr_rows]. rewrite aget_full. apply lget_some. unfold wptrs. rewrite fmap_seq_lookup by lia.
      rewrite cnt_wild by done. unfold L. by rewrite isort_length. }
    pose proof (csr_build_wild_rep (fun c => c) L (c_rows B) Hr ltac:(by apply Forall_true)) as Hrep.
    assert (Hcols : cols_ok (c_rows B) (length x) (shifted_row L)).
    { intros i _. unfold shifted_row, slice. apply Forall_take, Forall_drop. by rewrite HL. }
    cbv zeta.
    assert (Hfin : forall p : prog T unit, performs p b 0 (c_rows B) (fun _ => False) (fun k (z : T) => fold_left (accum (drop 0 x)) (shifted_row L k) z) ->
              all_schedules p (heap_of b y) tt (heap_of b (imap (fun i yi => fold_left (accum x) (misread (c_elems B) i) yi) y))).
    { intros p Hp. rewrite <- Hy in Hp. pose proof (performs_vector _ b y _ _ Hp ltac:(by intros [])) as Hall.
      rewrite drop_0 in Hall. erewrite imap_ext_lt in Hall; [exact Hall|]. intros i a _. cbv beta. by rewrite (misread_shifted (c_elems B) i). }
    assert (Hz : exists z, aget (full (wptrs (row <$> L) (c_rows B))) 0 = Ok z).
    { eexists. rewrite aget_full. apply lget_some. unfold wptrs. by rewrite fmap_seq_lookup by lia. }
    unfold csr_spmv, csr_spmv_serial, csr2_spmv, csr2_spmv_serial. cbn [csr_ptr csr_ind csr_vals csr_rows].
    split; [|split; [|split]]; apply Hfin.
    - by eapply performs_spmv_csr.
    - by eapply performs_spmv_csr_serial.
    - by eapply performs_spmv_csr2.
    - by eapply performs_spmv_csr2_serial.
  Qed.
End C91.

(** the silent wrong result: a 2 x 2 matrix with entries 1 at (0,0) and 1 at (1,1) plus one
    element whose row index is the largest value of the type; the product does not ignore that
    element, nor refuse it: it moves the others *)
Definition ex_wild `{Widths} : coo Z := Coo 2 2 [Elem 0 0 1%Z 0; Elem 1 1 1%Z 0; Elem (itW - 1) 0 50%Z 0].
Theorem C92_silent_refuted `{Widths} b : 3 < itW ->
  exists A B', Coo_to_Csr ex_wild = Ok (A, B') /\ csr_nonzeros A = Ok 3 /\
    all_schedules (csr_spmv A [7%Z; 20%Z] b) (heap_of b [0%Z; 0%Z]) tt (heap_of b [20%Z; 350%Z]) /\
    y_plus_Ax (bfilter (fun e => row e <? 2) (c_elems ex_wild)) 2 [7%Z; 20%Z] [0%Z; 0%Z] = [7%Z; 20%Z].
Proof.
  intros Hw. destruct (C92_csr_last_index ex_wild [7%Z; 20%Z] [0%Z; 0%Z] b) as (A & B' & HA & Hn & H1 & _); [cbn; lia|cbn; lia| | |done|].
  - unfold ex_wild. cbn [c_elems c_rows]. repeat (constructor; [cbn [row]; lia|]). constructor.
  - unfold ex_wild. cbn [c_elems]. repeat (constructor; [cbn [col length]; lia|]). constructor.
  - exists A, B'. split; [done|]. split; [exact Hn|].
    assert (Heq : imap (fun i yi => fold_left (accum [7%Z; 20%Z]) (misread (c_elems ex_wild) i) yi) [0%Z; 0%Z] = [20%Z; 350%Z]).
    { clear -Hw. unfold misread, ex_wild. cbn [c_elems]. remember (itW - 1) as n eqn:Hn. assert (2 < n) as Hn2 by lia. clear Hn Hw.
      assert (bfilter (fun e => row e =? n) [Elem 0 0 1%Z 0; Elem 1 1 1%Z 0; Elem n 0 50%Z 0] = [Elem n 0 50%Z 0]) as ->.
      { cbn [List.filter row]. rewrite Nat.eqb_refl, !(proj2 (Nat.eqb_neq _ n)) by lia. done. }
      destruct n as [|[|[|n]]]; [lia..|]. vm_compute. reflexivity. }
    split; [by rewrite Heq in H1|].
    unfold ex_wild. cbn [c_elems]. assert (2 < itW - 1) as Hn2 by lia. revert Hn2. generalize (itW - 1). intros n Hn2.
    destruct n as [|[|[|n]]]; [lia..|]. vm_compute. reflexivity.
Qed.

(** ** Examples *)
(** a 2 x 2 matrix with an element in row 5 *)
Definition ex_out : coo Z := Coo 2 2 [Elem 0 1 4%Z 0; Elem 5 0 3%Z 0].
Example C91_ex b : ~ in_range (c_rows ex_out) (c_cols ex_out) (c_elems ex_out) /\
  always_undefined (coo_spmv ex_out [1%Z; 1%Z] b) (heap_of b [0%Z; 0%Z]) /\
  all_schedules (coo_spmv ex_out [1%Z; 1%Z] b) (heap_of b [0; 0; 0; 0; 0; 7]%Z) tt (heap_of b [4; 0; 0; 0; 0; 10]%Z).
Proof.
  assert (Hno : ~ in_range 2 2 (c_elems ex_out)).
  { intros Hin. unfold in_range, ex_out in Hin. cbn [c_elems] in Hin. apply Forall_cons in Hin as [_ Hin]. apply Forall_cons in Hin as [[Hr _] _]. cbn [row] in Hr. lia. }
  split; [exact Hno|]. split; [apply C91_coo_outside; exact Hno|].
  assert (Heq : spmv_in_order (c_elems ex_out) [1%Z; 1%Z] [0; 0; 0; 0; 0; 7]%Z = [4; 0; 0; 0; 0; 10]%Z) by (vm_compute; reflexivity).
  rewrite <- Heq. apply C91_coo_inside. unfold in_range, ex_out. cbn [c_elems length]. repeat (constructor; [cbn [row col]; lia|]). constructor.
Qed.
(** a Matrix Market file numbered from 0 *)
Definition ex_zero_h : bytes := str "%%MatrixMarket matrix coordinate real general" ++ nl ++ str "2 2 3" ++ nl.
Definition ex_zero_f : bytes := str "0 0 5" ++ nl ++ str "1 1 6" ++ nl ++ str "1 0 7" ++ nl.
Lemma ex_zero_header : mm_header (TypeCode (chr "M") (chr "C") (chr "R") (chr "G")) 2 2 3 ex_zero_h.
Proof.
  exists (str "%%MatrixMarket matrix coordinate real general"), [], (str "2 2 3"). split; [done|]. split.
  { exists [], (str "matrix"), (str "coordinate"), (str "real"), (str "general"), []. split; [vm_compute; reflexivity|]. split; [done|]. split; [reflexivity|].
    unfold format_names, field_names, symmetry_names. rewrite !elem_of_cons. auto 10. }
  split; [vm_compute; repeat constructor|]. split; [vm_compute; repeat constructor; done|]. split; [vm_compute; lia|]. split; [constructor|].
  assert (Hit : int_text 2 (str "2")) by (exists (str "2"); split; [by repeat constructor|]; split; [done|]; by left).
  assert (Hit3 : int_text 3 (str "3")) by (exists (str "3"); split; [by repeat constructor|]; split; [done|]; by left).
  exists [], (str "2"), [32], (str "2"), [32], (str "3"), []. split; [done|]. repeat (split; [first [exact Hit|exact Hit3|by repeat constructor|done|unfold int_range, int_max; lia]|]).
  cbn. lia.
Qed.
Lemma ex_zero_entries : entries_text toy_scan [(0, 0, 5%Z); (1, 1, 6%Z); (1, 0, 7%Z)]%N ex_zero_f nl.
Proof.
  assert (Hn : forall n (t : bytes), forallb is_digit t = true -> t <> [] -> dec_val t = n -> num_text n t).
  { intros n t Hd Hne Hv. split; [|done]. apply Forall_forall. intros c Hc. rewrite forallb_forall in Hd. apply Hd. by apply elem_of_list_In. }
  assert (He : forall w0 r c v tr tc tv, spaces w0 -> num_text r tr -> num_text c tc -> real_text toy_scan v tv -> entry_text toy_scan (r, c, v) (w0 ++ tr ++ [32] ++ tc ++ [32] ++ tv)).
  { intros w0 r c v tr tc tv H1 H2 H3 H4. exists w0, tr, [32], tc, [32], tv. repeat (split; [first [done|by repeat constructor]|]). done. }
  assert (Hr : forall z t, int_text z t -> match t with c :: _ => c <> 43 | [] => True end -> real_text toy_scan z t).
  { intros z t Ht Hc. destruct (toy_real z t Ht) as [?|[d ->]]; [done|]. done. }
  apply (entries_cons _ _ _ (str "0 0 5") (nl ++ str "1 1 6" ++ nl ++ str "1 0 7" ++ nl)); [|done|].
  { apply (He [] _ _ _ (str "0") (str "0") (str "5")); [by constructor|by apply Hn|by apply Hn|]. apply Hr; [|done]. exists (str "5"). split; [by repeat constructor|]. split; [done|]. by left. }
  apply (entries_cons _ _ _ (nl ++ str "1 1 6") (nl ++ str "1 0 7" ++ nl)); [|done|].
  { apply (He nl _ _ _ (str "1") (str "1") (str "6")); [by repeat constructor|by apply Hn|by apply Hn|]. apply Hr; [|done]. exists (str "6"). split; [by repeat constructor|]. split; [done|]. by left. }
  apply (entries_cons _ _ _ (nl ++ str "1 0 7") nl); [|done|constructor].
  { apply (He nl _ _ _ (str "1") (str "0") (str "7")); [by repeat constructor|by apply Hn|by apply Hn|]. apply Hr; [|done]. exists (str "7"). split; [by repeat constructor|]. split; [done|]. by left. }
Qed.
(** ... is read without complaint: the rows and columns numbered 0 are now the largest index *)
Example C91_zero_based_ex `{Widths} fuel : 3 < itW ->
  exists A, read_mm_COO toy_scan fuel (Some (ex_zero_h ++ ex_zero_f)) = Ok (0%Z, Some A) /\
    raw_holds A (Coo 2 2 [Elem (itW - 1) (itW - 1) 5%Z 0; Elem 0 0 6%Z 0; Elem 0 (itW - 1) 7%Z 0]).
Proof.
  intros Hw.
  destruct (C91_mm_unchecked toy_scan fuel (TypeCode (chr "M") (chr "C") (chr "R") (chr "G")) 2 2 3 ex_zero_h [(0, 0, 5%Z); (1, 1, 6%Z); (1, 0, 7%Z)]%N ex_zero_f nl) as (A & HA & HB & _);
    [lia|exact ex_zero_header|done|done|done|lia|lia|lia|exact ex_zero_entries| |cbn; lia|cbn; lia|].
  - unfold ulong_max. repeat constructor; cbn [fst snd]; lia.
  - exists A. split; [exact HA|].
    assert (Hz : N.to_nat ((0 + N.of_nat itW - 1) mod N.of_nat itW) = itW - 1) by (rewrite N.mod_small by lia; lia).
    assert (H1 : N.to_nat ((1 + N.of_nat itW - 1) mod N.of_nat itW) = 0).
    { replace (1 + N.of_nat itW - 1)%N with (N.of_nat itW) by lia. rewrite N.mod_same by lia. done. }
    unfold wrapped in HB. cbn [fmap list_fmap fst snd] in HB. rewrite Hz, H1 in HB. exact HB.
Qed.
Definition ex_W8 : Widths := {| itW := 16 * 16; sitW := 16 |}.
Example C92_ex b : (exists A B', @Coo_to_Csr Z ex_W8 (@ex_wild ex_W8) = Ok (A, B') /\
    all_schedules (csr_spmv A [7%Z; 20%Z] b) (heap_of b [0%Z; 0%Z]) tt (heap_of b [20%Z; 350%Z])) /\
  @Coo_to_Csr Z ex_W8 ex_out = Undef OutOfBounds.
Proof.
  assert (Hw : 9 < @itW ex_W8) by (cbn; lia). split.
  - destruct (@C92_silent_refuted ex_W8 b) as (A & B' & HA & _ & H1 & _); [lia|eauto].
  - assert (H2 : 2 + 1 < @itW ex_W8) by lia. assert (H3 : 5 < @itW ex_W8 - 1) by lia.
    apply (@C92_csr_rows Z ex_W8); [exact H2|unfold c_nnz, ex_out; cbn [c_elems length]; lia| |].
    + unfold ex_out. cbn [c_elems]. repeat (constructor; [cbn [row]; lia|]). constructor.
    + unfold ex_out. cbn [c_elems]. apply Exists_cons_tl, Exists_cons_hd. cbn [row c_rows]. lia.
Qed.
