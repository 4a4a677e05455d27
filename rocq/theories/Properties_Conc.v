(** Properties_Conc.v: C94, several products at the same time. *)
From Verif Require Export ConcProof Properties_Drivers.

(** ** what the products allocate *)
Section allocs.
  Context {T : Type} `{Scalar T} `{Widths}.
  Implicit Types (P : buf -> Prop) (x : list T) (b : buf).
  Lemma allocs_yadd P b o i (t : T) : allocs P (yadd b o i t).
  Proof. done. Qed.
  Lemma allocs_write P l (v : T) : allocs P (write l v).
  Proof. done. Qed.
  Lemma allocs_read P l : allocs P (read l : prog T T).
  Proof. done. Qed.
  Ltac al := repeat (first [progress intros | exact Logic.I | match goal with |- allocs _ (read _) => done | |- allocs _ (yadd _ _ _ _) => done end | simple apply allocs_lift | simple apply allocs_pfor | simple apply allocs_parfor | simple apply allocs_bind | done]).
  Lemma allocs_coo_aos P (nz : arr (elem T)) n x xo b o : allocs P (spmv_coo_aos nz n x xo b o).
  Proof. unfold spmv_coo_aos. al. Qed.
  Lemma allocs_coo P (v : arr T) (ri ci : arr nat) s n x xo b o : allocs P (spmv_coo v ri ci s n x xo b o).
  Proof. unfold spmv_coo. al. Qed.
  Lemma allocs_csr_row P (v : arr T) (ci : arr nat) s r1 r2 x xo b o i : allocs P (csr_row v ci s r1 r2 x xo b o i).
  Proof. unfold csr_row, pfor_range. al. Qed.
  Lemma allocs_csr P rp rs ci (v : arr T) s M x xo b o : allocs P (spmv_csr rp rs ci v s M x xo b o).
  Proof. unfold spmv_csr. al. apply allocs_csr_row. Qed.
  Lemma allocs_csr_serial P rp rs ci (v : arr T) s M x xo b o : allocs P (spmv_csr_serial rp rs ci v s M x xo b o).
  Proof.
    unfold spmv_csr_serial. al. generalize 0 at 1. revert a. induction M as [|M IH]; intros r i; [done|]. cbn [csr_serial_loop].
    apply allocs_bind; [apply allocs_lift|]. intros r'. apply allocs_bind; [apply allocs_csr_row|]. intros _. apply IH.
  Qed.
  Lemma allocs_csr2 P rp ci (v : arr T) M x xo b o : allocs P (spmv_csr2 rp ci v M x xo b o).
  Proof. unfold spmv_csr2. al. Qed.
  Lemma allocs_csr2_serial P rp ci (v : arr T) M x xo b o : allocs P (spmv_csr2_serial rp ci v M x xo b o).
  Proof.
    unfold spmv_csr2_serial. al. generalize 0 at 1. revert a. induction M as [|M IH]; intros r i; [done|]. cbn [csr2_serial_loop].
    apply allocs_bind; [apply allocs_lift|]. intros r'. apply allocs_bind; [al|]. intros _. apply IH.
  Qed.
  Lemma allocs_crcsr_row P rp nzr ci (v : arr T) x xo b o i : allocs P (crcsr_row rp nzr ci v x xo b o i).
  Proof. unfold crcsr_row. al. Qed.
  Lemma allocs_dense_row P (v : arr T) N x xo b o i : allocs P (dense_row v N x xo b o i).
  Proof. unfold dense_row. al. Qed.
  Lemma allocs_mblock P (M : mblock T) x xo b o : allocs P (mblock_spmv M x xo b o).
  Proof.
    destruct M; cbn [mblock_spmv]; [apply allocs_coo|apply allocs_csr_serial|apply allocs_csr|].
    unfold dense_spmv, spmv_dense. al. apply allocs_dense_row.
  Qed.
  Lemma allocs_mblock_serial P (M : mblock T) x xo b o : allocs P (mblock_spmv_serial M x xo b o).
  Proof.
    destruct M; cbn [mblock_spmv_serial]; [apply allocs_coo|apply allocs_csr_serial|apply allocs_csr_serial|].
    unfold dense_spmv_serial, spmv_dense_serial. al. apply allocs_dense_row.
  Qed.
  (** a blocked matrix whose blocks allocate nothing *)
  Lemma allocs_one_block P (A : blocked T) x b o k : (forall k x xo b o, allocs P (bk_spmv A k x xo b o)) -> allocs P (one_block A x b o k).
  Proof. intros HA. unfold one_block. al; apply HA. Qed.
  Lemma allocs_balanced P (A : blocked T) x b : (forall k x xo b o, allocs P (bk_spmv A k x xo b o)) -> allocs P (spmv_balanced A x b).
  Proof. intros HA. unfold spmv_balanced, pfor_range. al; by apply allocs_one_block. Qed.
  Lemma allocs_chunk (A : blocked T) x chunks bsize fuel : (forall P k x xo b o, allocs P (bk_spmv A k x xo b o)) -> forall first last b o (π : buf),
    allocs (below π) (spmv_chunk fuel A x chunks first last bsize b o π).
  Proof.
    intros HA. induction fuel as [|f IH]; intros first last b o π; [done|]. cbn [spmv_chunk].
    destruct (wsub last first =? 1).
    - unfold pfor_range. al; by apply allocs_one_block.
    - cbv zeta. cbn [allocs]. split; [|split].
      + eapply allocs_mono; [|apply IH]. intros z Hz. by eapply below_snoc.
      + apply allocs_bind; [split; [apply below_self|done]|]. intros _. eapply allocs_mono; [|apply IH]. intros z Hz. by eapply below_snoc.
      + apply allocs_bind; [|done]. apply allocs_pfor. intros i. cbn. done.
  Qed.
  Lemma allocs_blocked (A : blocked T) parts bal x b : (forall P k x xo b o, allocs P (bk_spmv A k x xo b o)) -> allocs (below b) (spmv_blocked A parts bal x b).
  Proof.
    intros HA. unfold spmv_blocked. destruct bal; [by apply allocs_balanced|]. al. cbv zeta.
    eapply allocs_mono; [|by apply allocs_chunk]. intros z Hz. unfold temp_name in Hz. by eapply below_snoc.
  Qed.
  Lemma allocs_csbr_block P (A : csbr T) k x xo b o : allocs P (bk_spmv (csbr_view A) k x xo b o).
  Proof. cbn. al; apply allocs_csr. Qed.
  Lemma allocs_cgbr_block P nz (A : cgbr T) k x xo b o : allocs P (bk_spmv (cgbr_view nz A) k x xo b o).
  Proof. cbn. al; apply allocs_mblock. Qed.
End allocs.

(** ** C94 *)
Section C94.
  Context {T : Type} `{Scalar T} `{Widths}.
  Implicit Types (x y z : list T) (b : buf) (h : heap T).
  (** the products of the library: every format, parallel and serial *)
  Inductive product : (list T -> buf -> prog T unit) -> Prop :=
    | product_coo (A : coo T) : product (coo_spmv A)
    | product_coo1 (A : coo1 T) : product (fun x b => coo1_spmv A x 0 b 0)
    | product_csr (A : csr T) : product (csr_spmv A)
    | product_csr_serial (A : csr T) : product (csr_spmv_serial A)
    | product_csr2 (A : csr T) : product (csr2_spmv A)
    | product_csr2_serial (A : csr T) : product (csr2_spmv_serial A)
    | product_cswr (A : cswr T) : product (cswr_spmv A)
    | product_dense (A : dense T) : product (fun x b => dense_spmv A x 0 b 0)
    | product_dense_serial (A : dense T) : product (fun x b => dense_spmv_serial A x 0 b 0)
    | product_csbr (A : csbr T) parts balanced : product (csbr_spmv A parts balanced)
    | product_csbr2 (A : csbr2 T) : product (csbr2_spmv A)
    | product_cgbr (A : cgbr T) balanced parts : product (cgbr_spmv A balanced parts)
    | product_cgbr_serial (A : cgbr T) : product (cgbr_spmv_serial A)
    | product_cgbr2 (A : cgbr T) balanced parts : product (cgbr2_spmv A balanced parts).
  (** the names of the temporaries of a product into b begin with b *)
  Lemma product_allocs f x b : product f -> allocs (below b) (f x b).
  Proof.
    destruct 1.
    - apply allocs_coo_aos.
    - apply allocs_coo.
    - apply allocs_csr.
    - apply allocs_csr_serial.
    - apply allocs_csr2.
    - apply allocs_csr2_serial.
    - unfold cswr_spmv. apply allocs_parfor. intros i. do 2 (apply allocs_bind; [apply allocs_lift|]; intros ?). apply allocs_coo.
    - apply allocs_parfor. intros i. apply allocs_dense_row.
    - apply allocs_pfor. intros i. apply allocs_dense_row.
    - apply allocs_blocked. intros. apply allocs_csbr_block.
    - unfold csbr2_spmv. apply allocs_parfor. intros i. do 2 (apply allocs_bind; [apply allocs_lift|]; intros ?). cbv zeta.
      do 2 (apply allocs_bind; [apply allocs_lift|]; intros ?). apply allocs_pfor. intros k. apply allocs_bind; [apply allocs_lift|]. intros rp. apply allocs_csr_serial.
    - apply allocs_blocked. intros. apply allocs_cgbr_block.
    - unfold cgbr_spmv_serial. apply allocs_pfor. intros i. do 3 (apply allocs_bind; [apply allocs_lift|]; intros ?). apply allocs_pfor. intros k.
      do 3 (apply allocs_bind; [apply allocs_lift|]; intros ?). apply allocs_mblock_serial.
    - apply allocs_blocked. intros. apply allocs_cgbr_block.
  Qed.
  (** two vectors whose temporaries have different names *)
  Definition separate (b1 b2 : buf) : Prop := ~ b1 `prefix_of` b2 /\ ~ b2 `prefix_of` b1.
  Lemma separate_apart b1 b2 : separate b1 b2 -> apart (below b1) (below b2).
  Proof. intros [S1 S2] b H1 H2. unfold below in *. destruct (prefix_weak_total _ _ _ H1 H2); done. Qed.
  Lemma heap_of_within b y : within (below b) (heap_of b y).
  Proof. intros l [c Hc]. rewrite heap_of_lookup in Hc. destruct (decide _) as [[-> _]|] in Hc; [|done]. apply below_self. Qed.

  (** a product with other vectors in memory ([h0]) does what it does alone and leaves them as
      they are: it reads and writes nothing but its result and its own temporaries *)
  Theorem C94_frame f x y z b h0 : product f -> (forall l : list bool * nat, b `prefix_of` l.1 -> h0 !! l = None) ->
    all_schedules (f x b) (heap_of b y) tt (heap_of b z) -> all_schedules (f x b) (heap_of b y ∪ h0) tt (heap_of b z ∪ h0).
  Proof. intros Hf H0' Hs. apply (all_schedules_frame (below b)); [done|by apply product_allocs|apply heap_of_within|exact H0']. Qed.

  (** the memory that holds the vectors y 0 ... y (n - 1), in different buffers *)
  Fixpoint vectors (n lo : nat) (b : nat -> buf) (y : nat -> list T) : heap T :=
    match n with O => ∅ | S n => heap_of (b lo) (y lo) ∪ vectors n (S lo) b y end.
  Lemma vectors_within n : forall lo (b : nat -> buf) (y : nat -> list T), within (fun w => exists i, lo <= i < lo + n /\ below (b i) w) (vectors n lo b y).
  Proof.
    induction n as [|n IH]; intros lo b y l Hl; cbn [vectors] in Hl.
    - rewrite lookup_empty in Hl. by destruct Hl.
    - destruct Hl as [c Hc]. apply lookup_union_Some_raw in Hc as [Hc|[_ Hc]].
      + exists lo. split; [lia|]. apply (heap_of_within (b lo) (y lo)). eauto.
      + destruct (IH (S lo) b y l (ex_intro _ _ Hc)) as (i & Hi & Hb). exists i. split; [lia|done].
  Qed.
  (** n products at the same time, in any formats, with any vectors (the same x, if wanted), into
      different vectors: no schedule has a race, and each result is what it is alone *)
  Theorem C94_concurrent n (f : nat -> list T -> buf -> prog T unit) (x y z : nat -> list T) (b : nat -> buf) :
    (forall i, i < n -> product (f i)) -> (forall i j, i < j < n -> separate (b i) (b j)) ->
    (forall i, i < n -> all_schedules (f i (x i) (b i)) (heap_of (b i) (y i)) tt (heap_of (b i) (z i))) ->
    all_schedules (parfor n 0 (fun i => f i (x i) (b i))) (vectors n 0 b y) tt (vectors n 0 b z).
  Proof.
    intros Hf Hb Hs.
    assert (Hgen : forall k lo, lo + k = n -> all_schedules (parfor k lo (fun i => f i (x i) (b i))) (vectors k lo b y) tt (vectors k lo b z) /\
       allocs (fun w => exists i, lo <= i < lo + k /\ below (b i) w) (parfor k lo (fun i => f i (x i) (b i)))).
    { induction k as [|k IH]; intros lo Hk; cbn [parfor vectors].
      { split; [apply all_schedules_ret|done]. }
      destruct (IH (S lo) ltac:(lia)) as [I1 I2]. split.
      - eapply (all_schedules_fork (below (b lo)) (fun w => exists i, S lo <= i < S lo + k /\ below (b i) w)).
        + intros w W1 (i & Hi & W2). apply (separate_apart (b lo) (b i)) with w; [apply Hb; lia|done|done].
        + apply heap_of_within. + apply vectors_within. + apply product_allocs, Hf. lia. + exact I2. + apply Hs. lia. + exact I1.
      - cbn [allocs]. split; [|split; [|done]].
        + eapply allocs_mono; [|apply product_allocs, Hf; lia]. intros w Hw. exists lo. split; [lia|done].
        + eapply allocs_mono; [|exact I2]. intros w (i & Hi & Hw). exists i. split; [lia|done]. }
    apply Hgen. lia.
  Qed.
  (** one CSR matrix used for several vectors at the same time *)
  Theorem C94_shared_matrix n B (x y : nat -> list T) (b : nat -> buf) (one : T) : exact_arith T one -> csr_able B ->
    (forall i, i < n -> c_cols B <= length (x i) /\ length (y i) = c_rows B) -> (forall i j, i < j < n -> separate (b i) (b j)) ->
    exists A B', Coo_to_Csr B = Ok (A, B') /\
      all_schedules (parfor n 0 (fun i => csr_spmv A (x i) (b i))) (vectors n 0 b y) tt
        (vectors n 0 b (fun i => y_plus_Ax (c_elems B) (c_cols B) (x i) (y i))).
  Proof.
    intros SR (H1 & H2 & H3) Hxy Hb. destruct (C17_coo_to_csr B H1 H2 H3) as (A & B' & HA & _). exists A, B'. split; [done|].
    apply (C94_concurrent n (fun _ => csr_spmv A)); [intros; constructor|done|]. intros i Hi. destruct (Hxy i Hi) as [Hx Hy].
    destruct (C18_csr_spmv B (x i) (y i) (b i) one SR H1 H2 H3 Hx Hy) as (A' & B2 & HA' & Hs). rewrite HA in HA'. by injection HA' as <- <-.
  Qed.

  (** *** into the same vector *)
  Lemma step_writes {A} (c c' : prog T A * heap T) : step A c c' -> c'.2 = c.2 \/ exists l, next c.1 l true.
  Proof.
    induction 1 as [A l k h v Hv|A l v k h c Hc|A b n c k h Hf|A b n k h Hl|A p q k h p' h' _ IH|A p q k h q' h' _ IH|A k h]; cbn [fst snd next] in *.
    - by left.
    - right. by exists l.
    - destruct n as [|n]; [by left|]. right. exists (b, 0). cbn. repeat split; lia.
    - destruct n as [|n]; [by left|]. right. exists (b, 0). cbn. repeat split; lia.
    - destruct IH as [->|[l Hl]]; [by left|right]. exists l. by left.
    - destruct IH as [->|[l Hl]]; [by left|right]. exists l. by right.
    - by left.
  Qed.
  Lemma first_write {A} (p p' : prog T A) h h' : rtc (step A) (p, h) (p', h') -> h' <> h ->
    exists p1 l, rtc (step A) (p, h) (p1, h) /\ next p1 l true.
  Proof.
    intros Hr. remember (p, h) as c eqn:Ec. remember (p', h') as c' eqn:Ec'. revert p Ec. induction Hr as [c|c c1 c2 H1 _ IH]; intros p -> Hne.
    - congruence.
    - destruct c1 as [p1 h1]. destruct (step_writes _ _ H1) as [E|[l Hl]]; cbn [fst snd] in *.
      + subst h1. destruct (IH Ec' p1 eq_refl Hne) as (p2 & l & Hr & Hl). exists p2, l. split; [by eapply rtc_l|done].
      + exists p, l. split; [apply rtc_refl|done].
  Qed.
  Lemma rtc_left (p p' q : prog T unit) h h' k : rtc (step unit) (p, h) (p', h') -> rtc (step unit) (Fork p q k, h) (Fork p' q k, h').
  Proof.
    intros Hr. remember (p, h) as c eqn:Ec. remember (p', h') as c' eqn:Ec'. revert p h Ec. induction Hr as [c|c [p1 h1] c2 H1 _ IH]; intros p h ->.
    - injection Ec' as -> ->. apply rtc_refl.
    - eapply rtc_l; [apply S_left, H1|]. by apply IH.
  Qed.
  Lemma rtc_right (p q q' : prog T unit) h h' k : rtc (step unit) (q, h) (q', h') -> rtc (step unit) (Fork p q k, h) (Fork p q' k, h').
  Proof.
    intros Hr. remember (q, h) as c eqn:Ec. remember (q', h') as c' eqn:Ec'. revert q h Ec. induction Hr as [c|c [p1 h1] c2 H1 _ IH]; intros q h ->.
    - injection Ec' as -> ->. apply rtc_refl.
    - eapply rtc_l; [apply S_right, H1|]. by apply IH.
  Qed.
  (** the formats whose product uses no temporaries *)
  Definition plain (f : list T -> buf -> prog T unit) : Prop := forall x b, allocs (fun _ => False) (f x b).
  Lemma plain_formats : (forall A : coo T, plain (coo_spmv A)) /\ (forall A : csr T, plain (csr_spmv A)) /\ (forall A : csr T, plain (csr2_spmv A)) /\
    (forall A : cswr T, plain (cswr_spmv A)) /\ (forall A : csbr2 T, plain (csbr2_spmv A)) /\
    (forall (A : csbr T) parts, plain (csbr_spmv A parts true)) /\ (forall (A : cgbr T) parts, plain (cgbr_spmv A true parts)).
  Proof.
    split; [intros A x b; apply allocs_coo_aos|]. split; [intros A x b; apply allocs_csr|]. split; [intros A x b; apply allocs_csr2|].
    split; [intros A x b; unfold cswr_spmv; apply allocs_parfor; intros i; do 2 (apply allocs_bind; [apply allocs_lift|]; intros ?); apply allocs_coo|].
    split; [|split].
    - intros A x b. unfold csbr2_spmv. apply allocs_parfor. intros i. do 2 (apply allocs_bind; [apply allocs_lift|]; intros ?). cbv zeta.
      do 2 (apply allocs_bind; [apply allocs_lift|]; intros ?). apply allocs_pfor. intros k. apply allocs_bind; [apply allocs_lift|]. intros rp. apply allocs_csr_serial.
    - intros A parts x b. apply allocs_balanced. intros. apply allocs_csbr_block.
    - intros A parts x b. apply allocs_balanced. intros. apply allocs_cgbr_block.
  Qed.
  (** two products of the same matrix into the same vector race, unless the product changes nothing *)
  Theorem C94_same_vector_refuted f x y z b : plain f -> all_schedules (f x b) (heap_of b y) tt (heap_of b z) -> z <> y ->
    exists p q (i : nat), rtc (step unit) (Fork (f x b) (f x b) (Ret tt), heap_of b y) (Fork p q (Ret tt), heap_of b y) /\
      next p (b, i) true /\ next q (b, i) true /\ race (Fork p q (Ret tt)).
  Proof.
    intros Hp Hs Hne. assert (Hh : heap_of b z <> heap_of b y).
    { intros E. apply Hne. apply list_eq. intros i. assert (L : forall w : list T, heap_of b w !! (b, i) = Some <$> w !! i).
      { intros w. rewrite heap_of_lookup. destruct (decide _) as [D|D]; cbn [fst snd] in *.
        { destruct D as [_ D]. apply lookup_lt_is_Some in D as [v ->]. done. }
        destruct (w !! i) eqn:Ew; [|done]. apply lookup_lt_Some in Ew. exfalso. apply D. done. }
      pose proof (L z) as L1. rewrite E, L in L1. destruct (z !! i), (y !! i); cbn in L1; congruence. }
    destruct (first_write _ _ _ _ (all_schedules_reachable _ _ _ _ Hs) Hh) as (p1 & l & Hr & Hn).
    assert (Hl : l.1 = b).
    { assert (Hw : within (fun w => w = b) (heap_of b y)).
      { intros l' [c Hc]. rewrite heap_of_lookup in Hc. by destruct (decide _) as [[-> _]|] in Hc. }
      assert (Ha : allocs (fun w => w = b) (f x b)) by (eapply allocs_mono; [|apply Hp]; done).
      assert (Hnf : forall p' h', rtc (step unit) (f x b, heap_of b y) (p', h') -> ~ faults p' h') by (intros p' h' Hx; destruct Hs as [_ Hs]; by destruct (Hs _ _ Hx)).
      destruct (frame_run _ _ _ _ Hr (fun w => w = b) (heap_of b y) ∅) as (h' & E & Hr' & Hw' & Ha'); [by rewrite map_union_empty|done|intros l' _; apply lookup_empty|done|done|].
      rewrite map_union_empty in E. subst h'. apply (next_within p1 (fun w => w = b) (heap_of b y) l true); [done|done|by apply Hnf|done]. }
    destruct l as [b' i]. cbn in Hl. subst b'. exists p1, p1, i.
    assert (Hx : rtc (step unit) (Fork (f x b) (f x b) (Ret tt), heap_of b y) (Fork p1 p1 (Ret tt), heap_of b y)).
    { etrans; [by apply rtc_left|by apply rtc_right]. }
    split; [done|]. split; [done|]. split; [done|]. cbn [race]. right. right. exists (b, i), true, true. split; [done|]. split; [done|]. by left.
  Qed.
End C94.

(** *** examples: the matrix of 4 x 5 (C28_C41_ex) multiplied into two vectors at the same time;
    and the 1 x 1 matrix [1] multiplied twice into the same vector [0] by x = [1], where the
    two products can lose an update: both [2] and [1] are possible results *)
Example C94_ex : exists A B', Coo_to_Csr (H0 := ex_W16) ex_B = Ok (A, B') /\
  all_schedules (parfor 2 0 (fun i => csr_spmv A ex_x [Nat.eqb i 0])) (vectors 2 0 (fun i => [Nat.eqb i 0]) (fun i => if Nat.eqb i 0 then ex_y else [0; 0; 0; 0]%Z)) tt
    (vectors 2 0 (fun i => [Nat.eqb i 0]) (fun i => if Nat.eqb i 0 then [501; 12; 3; 70009]%Z else y_plus_Ax (c_elems ex_B) (c_cols ex_B) ex_x [0; 0; 0; 0]%Z)).
Proof.
  destruct (C94_shared_matrix (H0 := ex_W16) 2 ex_B (fun _ => ex_x) (fun i => if Nat.eqb i 0 then ex_y else [0; 0; 0; 0]%Z) (fun i => [Nat.eqb i 0]) 1%Z) as (A & B' & HA & Hs).
  - apply exact_Z.
  - split; [repeat constructor; cbn; lia|]. change (@itW ex_W16) with 256. split; [cbn; lia|]. change (c_nnz ex_B) with (length (c_elems ex_B)). cbn. lia.
  - intros i Hi. destruct i as [|[|i]]; [| |lia]; split; cbn; lia.
  - intros i j Hij. destruct i as [|i]; destruct j as [|[|j]]; try lia. split; intros [k Hk]; discriminate.
  - exists A, B'. split; [done|]. exact Hs.
Qed.
Definition one_A : csr Z := Csr 1 1 (full [0; 1]) (full [0]) (full [1%Z]).
Example C94_lost_update : (exists B', Coo_to_Csr (H0 := ex_W16) (Coo 1 1 [Elem 0 0 1%Z 0]) = Ok (one_A, B')) /\
  forall r : Z, r ∈ [1; 2]%Z ->
  rtc (step unit) (Fork (csr_spmv one_A [1%Z] []) (csr_spmv one_A [1%Z] []) (Ret tt), heap_of [] [0%Z]) (Ret tt, heap_of [] [r]).
Proof.
  split; [eexists; vm_compute; reflexivity|].
  assert (W : forall u v : Z, upd (Some (Some v)) ([] : buf, 0) (heap_of [] [u]) = heap_of [] [v]).
  { intros u v. apply map_eq. intros l. rewrite upd_lookup, !heap_of_lookup. destruct (decide (l = ([], 0))) as [->|Hl]; [done|]. destruct (decide (l.1 = [] /\ l.2 < length [u])) as [[E1 E2]|D1]; [|destruct (decide _) as [D|] in |- *; [by exfalso|done]]. exfalso. apply Hl. destruct l as [a i]. cbn in *. f_equal; [done|lia]. }
  assert (L : forall u : Z, heap_of [] [u] !! ([] : buf, 0) = Some (Some u)) by (intros u; by rewrite heap_of_lookup).
  change (csr_spmv one_A [1%Z] []) with (Fork (Read ([], 0) (fun v => Write ([], 0) (v + 1)%Z (Ret tt))) (Ret tt) (Ret tt) : prog Z unit).
  intros r Hr. apply elem_of_cons in Hr as [-> | Hr]; [|apply elem_of_list_singleton in Hr as ->].
  - (* both read 0 *)
    eapply rtc_l; [apply S_left, S_left, S_read, L|]. eapply rtc_l; [apply S_right, S_left, S_read, L|].
    eapply rtc_l; [apply S_left, S_left; eapply S_write, L|]. rewrite W. eapply rtc_l; [apply S_right, S_left; eapply S_write, L|]. rewrite W.
    eapply rtc_l; [apply S_left, S_join|]. eapply rtc_l; [apply S_right, S_join|]. eapply rtc_l; [apply S_join|]. apply rtc_refl.
  - eapply rtc_l; [apply S_left, S_left, S_read, L|]. eapply rtc_l; [apply S_left, S_left; eapply S_write, L|]. rewrite W.
    eapply rtc_l; [apply S_right, S_left, S_read, L|]. eapply rtc_l; [apply S_right, S_left; eapply S_write, L|]. rewrite W.
    eapply rtc_l; [apply S_left, S_join|]. eapply rtc_l; [apply S_right, S_join|]. eapply rtc_l; [apply S_join|]. apply rtc_refl.
Qed.
