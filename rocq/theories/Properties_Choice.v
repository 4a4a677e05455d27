(** Properties_Choice.v: C84-C86, the floating-point decisions: which format a block gets,
    and whether a Cgbr matrix counts as balanced. *)
From Verif Require Export ChoiceProof DupProof Properties_Cgbr Properties_Drivers.
From Coq Require Import QArith Qpower Qround Qabs Lqa ZifyNat.
Local Open Scope nat_scope.

(** ** Rounding: [fl q] is a number of 24 bits, and no number of 24 bits is nearer to q *)
Definition is_float (f : Q) : Prop := exists m e : Z, (0 <= m <= 2 ^ 24)%Z /\ (f == inject_Z m * Qpower 2 e)%Q.
Lemma nearest_best (q : Q) (k : Z) : (Qabs (inject_Z (nearest q) - q) <= Qabs (inject_Z k - q))%Q.
Proof.
  pose proof (Qfloor_le q) as F1. pose proof (Qlt_floor q) as F2. unfold nearest. set (f := Qfloor q) in *.
  rewrite inject_Z_plus in F2. change (inject_Z 1) with 1%Q in F2.
  assert (Hk : (k <= f \/ f + 1 <= k)%Z) by lia.
  assert (Hq : (inject_Z k <= inject_Z f \/ inject_Z f + 1 <= inject_Z k)%Q).
  { destruct Hk as [Hk|Hk]; [left; by rewrite <- Zle_Qle|right]. change 1%Q with (inject_Z 1). rewrite <- inject_Z_plus. by rewrite <- Zle_Qle. }
  assert (Hleft : (Qabs (inject_Z f - q) == q - inject_Z f)%Q) by (rewrite Qabs_neg by lra; ring).
  assert (Hright : (Qabs (inject_Z (f + 1) - q) == inject_Z f + 1 - q)%Q) by (rewrite inject_Z_plus; change (inject_Z 1) with 1%Q; rewrite Qabs_pos by lra; ring).
  assert (Hl : (q - inject_Z k <= Qabs (inject_Z k - q))%Q) by (rewrite Qabs_Qminus; apply Qle_Qabs).
  assert (Hr : (inject_Z k - q <= Qabs (inject_Z k - q))%Q) by apply Qle_Qabs.
  destruct (Qcompare_spec (q - inject_Z f) (1 # 2)) as [Hc|Hc|Hc]; [destruct (Z.even f)| |]; rewrite ?Hleft, ?Hright; destruct Hq; lra.
Qed.
Theorem C84_rounding (q : Q) : (0 <= q)%Q -> is_float (fl q) /\ forall f, is_float f -> (Qabs (fl q - q) <= Qabs (f - q))%Q.
Proof.
  intros Hq. destruct (Qle_lt_or_eq _ _ Hq) as [Hp|E].
  2:{ rewrite fl_0 by lra. split; [exists 0%Z, 0%Z; split; [lia|reflexivity]|]. intros f _. rewrite <- E. rewrite Qabs_pos by lra. apply Qle_trans with 0%Q; [lra|apply Qabs_nonneg]. }
  rewrite fl_pos_eq by done. destruct (exponent_spec q Hp) as [E1 E2]. set (e := exponent q) in *. set (w := Qpower 2 (e - 23)).
  assert (Hw : (0 < w)%Q) by apply pow2_pos.
  assert (H1 : (Qpower 2 e == w * (8388608 # 1))%Q) by (replace e with (e - 23 + 23)%Z at 1 by lia; rewrite pow2_add; apply Qeq_refl).
  assert (H2 : (Qpower 2 (e + 1) == w * (16777216 # 1))%Q) by (replace (e + 1)%Z with (e - 23 + 24)%Z by lia; rewrite pow2_add; apply Qeq_refl).
  set (x := (q / w)%Q). assert (Hx : (q == x * w)%Q) by (unfold x; field; lra).
  assert (X1 : (8388608 # 1 <= x)%Q). { apply (Qmult_le_r _ _ w Hw). rewrite <- Hx. rewrite H1 in E1. lra. }
  assert (X2 : (x < 16777216 # 1)%Q). { apply (Qmult_lt_r _ _ w Hw). rewrite <- Hx. rewrite H2 in E2. lra. }
  assert (Hbest : forall k, (Qabs (inject_Z (nearest x) * w - q) <= Qabs (inject_Z k * w - q))%Q).
  { intros k. assert (Hz : forall z, (Qabs (inject_Z z * w - q) == Qabs (inject_Z z - x) * w)%Q).
    { intros z. rewrite Hx. rewrite <- (Qabs_pos w) at 3 by lra. rewrite <- Qabs_Qmult. apply Qabs_wd. ring. }
    rewrite !Hz. apply Qmult_le_compat_r; [apply nearest_best|lra]. }
  split.
  - exists (nearest x), (e - 23)%Z. split; [|apply Qeq_refl]. destruct (nearest_err x) as [N1 N2]. split.
    + assert (Hlt : (inject_Z (-1) < inject_Z (nearest x))%Q) by (change (inject_Z (-1)) with (-1)%Q; lra). rewrite <- Zlt_Qlt in Hlt. lia.
    + assert (Hlt : (inject_Z (nearest x) < inject_Z (2 ^ 24 + 1))%Q) by (change (inject_Z (2 ^ 24 + 1)) with (16777217 # 1); lra). rewrite <- Zlt_Qlt in Hlt. lia.
  - intros f (m & e' & Hm & Hf). rewrite Hf. destruct (decide (e - 23 <= e')%Z) as [He|He].
    + eapply Qle_trans; [apply (Hbest (m * 2 ^ (e' - (e - 23)))%Z)|]. apply Qle_lteq. right. apply Qabs_wd.
      rewrite inject_Z_mult, <- pow2_inject by lia. replace e' with (e' - (e - 23) + (e - 23))%Z at 2 by lia. rewrite (pow2_add (e' - (e - 23))). fold w. ring.
    + eapply Qle_trans; [apply (Hbest (2 ^ 23)%Z)|]. change (inject_Z (2 ^ 23)) with (8388608 # 1).
      assert (Hle : (inject_Z m * Qpower 2 e' <= (8388608 # 1) * w)%Q).
      { assert (P1 : (Qpower 2 e' <= Qpower 2 (e - 24))%Q) by (apply pow2_mono; lia).
        assert (P2 : (w == 2 * Qpower 2 (e - 24))%Q) by (unfold w; replace (e - 23)%Z with (e - 24 + 1)%Z by lia; apply pow2_succ).
        assert (P3 : (0 <= inject_Z m <= 16777216 # 1)%Q). { change (16777216 # 1) with (inject_Z (2 ^ 24)). rewrite <- (Zle_Qle 0), <- Zle_Qle. lia. }
        pose proof (pow2_pos e') as P4. pose proof (pow2_pos (e - 24)) as P5. set (a := Qpower 2 e') in *. set (c := Qpower 2 (e - 24)) in *.
        apply Qle_trans with ((16777216 # 1) * a)%Q; [apply Qmult_le_compat_r; [apply P3|lra]|]. lra. }
      rewrite H1 in E1. rewrite (Qabs_neg ((8388608 # 1) * w - q)) by lra. rewrite Qabs_neg by lra. lra.
Qed.

(** if another float is as near to q, the one chosen has an even significand *)
Lemma nearest_tie (q : Q) (k : Z) : (Qabs (inject_Z (nearest q) - q) == Qabs (inject_Z k - q))%Q -> k <> nearest q -> Z.even (nearest q) = true.
Proof.
  pose proof (Qfloor_le q) as F1. pose proof (Qlt_floor q) as F2. unfold nearest. set (f := Qfloor q) in *.
  rewrite inject_Z_plus in F2. change (inject_Z 1) with 1%Q in F2. intros He Hne.
  assert (Hleft : (Qabs (inject_Z f - q) == q - inject_Z f)%Q) by (rewrite Qabs_neg by lra; ring).
  assert (Hright : (Qabs (inject_Z (f + 1) - q) == inject_Z f + 1 - q)%Q) by (rewrite inject_Z_plus; change (inject_Z 1) with 1%Q; rewrite Qabs_pos by lra; ring).
  assert (Hlow : (k <= f - 1)%Z -> (inject_Z k + 1 <= inject_Z f)%Q).
  { intros Hk. change 1%Q with (inject_Z 1). rewrite <- inject_Z_plus, <- Zle_Qle. lia. }
  assert (Hhigh : (f + 2 <= k)%Z -> (inject_Z f + 2 <= inject_Z k)%Q).
  { intros Hk. change 2%Q with (inject_Z 2). rewrite <- inject_Z_plus, <- Zle_Qle. lia. }
  assert (Hl : (q - inject_Z k <= Qabs (inject_Z k - q))%Q) by (rewrite Qabs_Qminus; apply Qle_Qabs).
  assert (Hr : (inject_Z k - q <= Qabs (inject_Z k - q))%Q) by apply Qle_Qabs.
  assert (Hk : (k <= f - 1 \/ k = f \/ k = f + 1 \/ f + 2 <= k)%Z) by lia.
  destruct (Qcompare_spec (q - inject_Z f) (1 # 2)) as [Hc|Hc|Hc].
  - destruct (Z.even f) eqn:Ev; [done|]. by rewrite Z.even_add, Ev.
  - rewrite Hleft in He. destruct Hk as [Hk|[->|[->|Hk]]]; [specialize (Hlow Hk); lra|done|rewrite Hright in He; lra|specialize (Hhigh Hk); lra].
  - rewrite Hright in He. destruct Hk as [Hk|[->|[->|Hk]]]; [specialize (Hlow Hk); lra|rewrite Hleft in He; lra|done|specialize (Hhigh Hk); lra].
Qed.
Theorem C84_rounding_ties (q f : Q) : (0 <= q)%Q -> is_float f -> (Qabs (fl q - q) == Qabs (f - q))%Q -> ~ (f == fl q)%Q ->
  exists m e : Z, (2 ^ 23 <= m <= 2 ^ 24)%Z /\ (fl q == inject_Z m * Qpower 2 e)%Q /\ Z.even m = true.
Proof.
  intros Hq (m & e' & Hm & Hf) Heq Hne. destruct (Qle_lt_or_eq _ _ Hq) as [Hp|E].
  2:{ exfalso. rewrite fl_0 in Heq, Hne by lra. rewrite <- E in Heq. change (Qabs (0 - 0)) with 0%Q in Heq. apply Hne.
      pose proof (Qle_Qabs (f - 0)). pose proof (Qle_Qabs (0 - f)) as H2. rewrite Qabs_Qminus in H2. lra. }
  rewrite fl_pos_eq in * by done. destruct (exponent_spec q Hp) as [E1 E2]. set (e := exponent q) in *. set (w := Qpower 2 (e - 23)) in *.
  assert (Hw : (0 < w)%Q) by apply pow2_pos.
  assert (H1 : (Qpower 2 e == w * (8388608 # 1))%Q) by (replace e with (e - 23 + 23)%Z at 1 by lia; rewrite pow2_add; apply Qeq_refl).
  assert (H2 : (Qpower 2 (e + 1) == w * (16777216 # 1))%Q) by (replace (e + 1)%Z with (e - 23 + 24)%Z by lia; rewrite pow2_add; apply Qeq_refl).
  set (x := (q / w)%Q) in *. assert (Hx : (q == x * w)%Q) by (unfold x; field; lra).
  assert (X1 : (8388608 # 1 <= x)%Q). { apply (Qmult_le_r _ _ w Hw). rewrite <- Hx. rewrite H1 in E1. lra. }
  assert (X2 : (x < 16777216 # 1)%Q). { apply (Qmult_lt_r _ _ w Hw). rewrite <- Hx. rewrite H2 in E2. lra. }
  assert (Hz : forall z, (Qabs (inject_Z z * w - q) == Qabs (inject_Z z - x) * w)%Q).
  { intros z. rewrite Hx. rewrite <- (Qabs_pos w) at 3 by lra. rewrite <- Qabs_Qmult. apply Qabs_wd. ring. }
  assert (Hk : exists k, (f == inject_Z k * w)%Q).
  { destruct (decide (e - 23 <= e')%Z) as [He|He].
    - exists (m * 2 ^ (e' - (e - 23)))%Z. rewrite Hf, inject_Z_mult, <- pow2_inject by lia. replace e' with (e' - (e - 23) + (e - 23))%Z at 1 by lia. rewrite (pow2_add (e' - (e - 23))). fold w. ring.
    - exists (2 ^ 23)%Z. change (inject_Z (2 ^ 23)) with (8388608 # 1).
      assert (Hle : (f <= (8388608 # 1) * w)%Q).
      { assert (P1 : (Qpower 2 e' <= Qpower 2 (e - 24))%Q) by (apply pow2_mono; lia).
        assert (P2 : (w == 2 * Qpower 2 (e - 24))%Q) by (unfold w; replace (e - 23)%Z with (e - 24 + 1)%Z by lia; apply pow2_succ).
        assert (P3 : (0 <= inject_Z m <= 16777216 # 1)%Q). { change (16777216 # 1) with (inject_Z (2 ^ 24)). rewrite <- (Zle_Qle 0), <- Zle_Qle. lia. }
        pose proof (pow2_pos e') as P4. pose proof (pow2_pos (e - 24)) as P5. set (a := Qpower 2 e') in *. set (c := Qpower 2 (e - 24)) in *.
        rewrite Hf. apply Qle_trans with ((16777216 # 1) * a)%Q; [apply Qmult_le_compat_r; [apply P3|lra]|]. lra. }
      assert (Hb : (Qabs (inject_Z (nearest x) * w - q) <= Qabs ((8388608 # 1) * w - q))%Q).
      { change (8388608 # 1) with (inject_Z (2 ^ 23)). rewrite !Hz. apply Qmult_le_compat_r; [apply nearest_best|lra]. }
      rewrite Heq in Hb. rewrite H1 in E1. rewrite (Qabs_neg (f - q)) in Hb by lra. rewrite Qabs_neg in Hb by lra. lra. }
  destruct Hk as [k Hk].
  assert (Hev : Z.even (nearest x) = true).
  { apply (nearest_tie x k).
    - apply (Qmult_inj_r _ _ w); [lra|]. rewrite <- !Hz, Heq. apply Qabs_wd. rewrite Hk. reflexivity.
    - intros ->. by apply Hne. }
  exists (nearest x), (e - 23)%Z. split; [|by split; [apply Qeq_refl|]]. destruct (nearest_err x) as [N1 N2]. split.
  + assert (Hlt : (inject_Z (2 ^ 23 - 1) < inject_Z (nearest x))%Q) by (change (inject_Z (2 ^ 23 - 1)) with (8388607 # 1); lra). rewrite <- Zlt_Qlt in Hlt. lia.
  + assert (Hlt : (inject_Z (nearest x) < inject_Z (2 ^ 24 + 1))%Q) by (change (inject_Z (2 ^ 24 + 1)) with (16777217 # 1); lra). rewrite <- Zlt_Qlt in Hlt. lia.
Qed.

(** ** C84: the blocks of Cgbr *)
(** when the short index type is narrower than the value type, every block is stored as COO *)
Theorem C84_always_coo (t i s rows cols nnz : nat) : s < t -> t <= 16 -> 0 < nnz \/ 0 < i * rows -> float_choose t i s rows cols nnz = KCoo.
Proof.
  intros Hs Ht Hn. unfold float_choose. rewrite (proj2 (Qltb_iff _ _)); [done|].
  destruct (size_coo_close t s nnz) as [_ A]. destruct (size_csr_close t i s rows nnz) as [B _].
  set (a := size_coo t s nnz) in *. set (c := size_csr t i s rows nnz) in *.
  assert (Hc : (0 <= qn (i * rows + (s + t) * nnz))%Q) by apply qn_nonneg.
  assert (H1 : (qn (2 * ((2 * s + t) * nnz) + nnz + 3 * (i * rows)) <= qn (3 * (i * rows + (s + t) * nnz)))%Q) by (apply qn_le; nia).
  assert (H2 : (qn ((2 * s + t) * nnz) <= qn (46 * nnz))%Q) by (apply qn_le; nia).
  assert (H3 : (1 <= qn nnz + 3 * qn (i * rows))%Q).
  { change 1%Q with (qn 1). change 3%Q with (qn 3). rewrite <- qn_mul, <- qn_add. apply qn_le. lia. }
  rewrite !qn_add in H1. rewrite (qn_mul 2), (qn_mul 3), (qn_mul 3), (qn_mul 46), qn_add in *.
  change (qn 2) with 2%Q in *. change (qn 3) with 3%Q in *. change (qn 46) with 46%Q in *.
  pose proof (qn_nonneg ((2 * s + t) * nnz)) as H4. pose proof (qn_nonneg ((s + t) * nnz)) as H5. pose proof (qn_nonneg (i * rows)) as H6. pose proof (qn_nonneg nnz) as H7.
  set (CC := qn ((2 * s + t) * nnz)) in *. set (SN := qn ((s + t) * nnz)) in *. set (IR := qn (i * rows)) in *. set (N := qn nnz) in *.
  assert (Hpos : (0 <= (3 # 2) * c)%Q) by lra. destruct (fl_err _ Hpos) as [F _]. set (o := fl ((3 # 2) * c)) in *. unfold u in F. lra.
Qed.
(** when it is as wide as the value type this holds as long as the sizes are computed exactly *)
Theorem C84_same_width (t i rows cols nnz : nat) : 0 < i * rows -> (N.of_nat (3 * (i * rows) + 3 * (2 * t) * nnz) <= 2 ^ 24)%N -> 0 < t ->
  float_choose t i t rows cols nnz = KCoo.
Proof.
  intros Hr He Ht. unfold float_choose. rewrite (proj2 (Qltb_iff _ _)); [done|].
  assert (L1 : nnz <= t * nnz) by (clear -Ht; nia). assert (L2 : rows <= i * rows) by (clear -Hr; destruct i; [lia|nia]).
  assert (L3 : (2 * t + t) * nnz = 3 * (t * nnz)) by lia. assert (L4 : (t + t) * nnz = 2 * (t * nnz)) by lia. assert (L5 : 3 * (2 * t) * nnz = 6 * (t * nnz)) by lia.
  assert (X1 : (size_coo t t nnz == qn ((2 * t + t) * nnz))%Q) by (apply size_coo_exact; unfold exact; lia). rewrite X1. assert (X2 : (size_csr t i t rows nnz == qn (i * rows + (t + t) * nnz))%Q) by (apply size_csr_exact; unfold exact; lia).
  rewrite (fl_proper ((3 # 2) * size_csr t i t rows nnz) ((3 # 2) * qn (i * rows + (t + t) * nnz))) by (by rewrite X2).
  assert (Hi : exists z, ((3 # 2) * qn (i * rows + (t + t) * nnz) * 2 == qn z)%Q /\ z = 3 * (i * rows) + 3 * (2 * t) * nnz).
  { eexists. split; [|reflexivity]. rewrite !qn_add, !qn_mul, ?qn_add. change (qn 3) with 3%Q. change (qn 2) with 2%Q. rewrite ?qn_add. ring. }
  destruct Hi as (z & Hz & Ez). destruct (Nat.Even_or_Odd z) as [[k Hk]|Hodd].
  - assert (E : ((3 # 2) * qn (i * rows + (t + t) * nnz) == qn k)%Q). { rewrite Hk, qn_mul in Hz. change (qn 2) with 2%Q in Hz. lra. }
    rewrite E, (fl_qn k) by lia. apply qn_lt. replace ((2 * t + t) * nnz) with (3 * t * nnz) by lia. nia.
  - assert (Hp : (0 <= (3 # 2) * qn (i * rows + (t + t) * nnz))%Q) by (pose proof (qn_nonneg (i * rows + (t + t) * nnz)); lra).
    assert (Hrel : (qn ((2 * t + t) * nnz) * 2 + 3 <= (3 # 2) * qn (i * rows + (t + t) * nnz) * 2)%Q).
    { rewrite Hz. change 2%Q with (qn 2). change 3%Q with (qn 3). rewrite <- qn_mul, <- qn_add. apply qn_le. nia. }
    assert (Hle : (qn z <= 16777216 # 1)%Q) by (change (16777216 # 1) with (inject_Z (2 ^ 24)); unfold qn; rewrite <- Zle_Qle; lia).
    destruct (fl_err _ Hp) as [F _]. rewrite <- Hz in Hle. set (o := fl _) in *. set (c := qn ((2 * t + t) * nnz)) in *. set (d := qn (i * rows + (t + t) * nnz)) in *. unfold u in F. lra.
Qed.

Section C84.
  Context {T : Type} `{Scalar T} `{Widths}.
  Implicit Types (B : coo T) (x y : list T) (b : buf) (roff coff : list nat).
  (** [t], [i], [s]: sizeof(T), sizeof(IT), sizeof(SIT) *)
  Lemma float_no_dense (t i s : nat) B roff nbr coff nbc : s < t -> t <= 16 -> 0 < i -> 0 < itW -> dense_blocks (float_choose t i s) B roff nbr coff nbc small_distinct.
  Proof.
    intros H1 H2 H3 H4 br bc Hbr Hbc L Hk. destruct (decide (0 < length L \/ 0 < i * block_rows roff br)) as [Hd|Hd].
    - by rewrite (C84_always_coo t i s _ _ _ H1 H2 Hd) in Hk.
    - assert (HL : L = []) by (destruct L; [done|exfalso; apply Hd; left; cbn; lia]).
      assert (Hr : block_rows roff br = 0) by (destruct (block_rows roff br); [done|exfalso; apply Hd; right; nia]).
      rewrite HL, Hr. split; [lia|constructor].
  Qed.
  (** So Cgbr multiplies right for every matrix, with duplicates as well *)
  Theorem C84_cgbr_spmv (t i s : nat) B roff nbr coff nbc workers x y b (one : T) : exact_arith T one -> s < t -> t <= 16 -> 0 < i ->
    blockable B roff nbr coff nbc -> workers_ok B workers -> short_type -> short_blocks roff nbr coff nbc ->
    c_cols B <= length x -> length y = c_rows B ->
    exists A balanced parts B', Coo_to_Cgbr (float_choose t i s) float_balanced workers B (full roff) nbr (full coff) nbc = Ok (A, balanced, parts, B') /\
      all_schedules (cgbr_spmv A balanced parts x b) (heap_of b y) tt (heap_of b (y_plus_Ax (c_elems B) (c_cols B) x y)) /\
      all_schedules (cgbr_spmv_serial A x b) (heap_of b y) tt (heap_of b (y_plus_Ax (c_elems B) (c_cols B) x y)).
  Proof.
    intros SR H1 H2 H3 HB HW Hst Hsh Hx Hy. pose proof HW as (W1 & W2 & W3).
    apply (C33_cgbr_spmv _ _ B roff nbr coff nbc workers x y b one); try done. apply float_no_dense; try done. lia.
  Qed.
  Theorem C84_cgbr_const_spmv (t i s : nat) B (bs workers : nat) x y b (one : T) : exact_arith T one -> s < t -> t <= 16 -> 0 < i ->
    const_able B bs workers -> short_able bs -> c_cols B <= length x -> length y = c_rows B ->
    exists A balanced parts B', Coo_to_Cgbr_const (float_choose t i s) float_balanced workers B bs bs = Ok (A, balanced, parts, B') /\
      all_schedules (cgbr_spmv A balanced parts x b) (heap_of b y) tt (heap_of b (y_plus_Ax (c_elems B) (c_cols B) x y)).
  Proof.
    intros SR H1 H2 H3 Ha (S1 & S2 & S3) Hx Hy. pose proof (const_able_blockable B bs workers Ha) as Hb. destruct Ha as (A1 & A2 & A3 & A4 & A5 & A6 & HW).
    unfold Coo_to_Cgbr_const. rewrite !const_offsets_spec by done. cbn [mbind outcome_bind].
    destruct (C84_cgbr_spmv t i s B _ _ _ _ workers x y b one SR H1 H2 H3 Hb HW S3 (const_short B bs bs A1 A1 S1 S1) Hx Hy) as (A & balanced & parts & B' & HA & HS & _).
    by exists A, balanced, parts, B'.
  Qed.
End C84.

(** ** C85: the default factory of Cgbr2 *)
Section C85.
  Context (t i s : nat) `{Widths}.
  Notation coo_size n := ((2 * s + t) * n).
  Notation csr_size r n := (i * r + (s + t) * n).
  Notation dense_size r c := (r * c * t).
  (** [a] is below [b] by more than one part in a million *)
  Definition clearly_below (a b : nat) : Prop := (N.of_nat a * 1000001 < N.of_nat b * 1000000)%N.
  Lemma clearly_lt (a b : nat) (p q : Q) : close p (qn a) -> close q (qn b) -> clearly_below a b -> (p < q)%Q.
  Proof.
    intros [_ A] [B _] Hc. unfold clearly_below in Hc.
    assert (Hq : (qn a * (1000001 # 1) < qn b * (1000000 # 1))%Q).
    { unfold qn. change (1000001 # 1) with (inject_Z 1000001). change (1000000 # 1) with (inject_Z 1000000). rewrite <- !inject_Z_mult, <- Zlt_Qlt. lia. }
    pose proof (qn_nonneg a). pose proof (qn_nonneg b). lra.
  Qed.
  (** for blocks of any size: the smallest of COO and CSR, and dense only when it is smaller than
      CSR, unless the sizes in bytes are within one part in a million of each other *)
  Theorem C85_factory (rows cols nnz : nat) :
    (clearly_below (coo_size nnz) (csr_size rows nnz) -> float_choose2 t i s rows cols nnz = K2Coo) /\
    (clearly_below (csr_size rows nnz) (coo_size nnz) -> clearly_below (dense_size rows cols) (csr_size rows nnz) -> float_choose2 t i s rows cols nnz = K2Dense) /\
    (clearly_below (csr_size rows nnz) (coo_size nnz) -> clearly_below (csr_size rows nnz) (dense_size rows cols) ->
       float_choose2 t i s rows cols nnz = K2CsrSerial \/ float_choose2 t i s rows cols nnz = K2CsrParallel).
  Proof.
    pose proof (size_coo_close t s nnz) as A. pose proof (size_csr_close t i s rows nnz) as B. pose proof (size_dense_close t rows cols) as D.
    unfold float_choose2. split; [|split].
    - intros Hc. by rewrite (proj2 (Qltb_iff _ _) (clearly_lt _ _ _ _ A B Hc)).
    - intros H1 H2. rewrite (proj2 (Qltb_false _ _)); [|apply Qlt_le_weak; exact (clearly_lt _ _ _ _ B A H1)].
      by rewrite (proj2 (Qltb_false _ _)); [|apply Qlt_le_weak; exact (clearly_lt _ _ _ _ D B H2)].
    - intros H1 H2. rewrite (proj2 (Qltb_false _ _)); [|apply Qlt_le_weak; exact (clearly_lt _ _ _ _ B A H1)].
      rewrite (proj2 (Qltb_iff _ _) (clearly_lt _ _ _ _ B D H2)). destruct (is_less _ _); auto.
  Qed.
  (** blocks whose sizes in bytes are below 2^23: the rule is exact; the two kinds of CSR are
      told apart at a density of 1 in 20 *)
  Lemma below_density (nnz area : nat) : 0 < area -> (N.of_nat nnz <= 2 ^ 23)%N -> (N.of_nat area <= 2 ^ 23)%N ->
    is_less (ratio (fl (qn nnz)) (fl (qn area))) (fl (1 # 20)) = true <-> 20 * nnz < area.
  Proof.
    intros Ha Hn Har. assert (E1 : (fl (qn nnz) == qn nnz)%Q) by (apply fl_qn; lia). assert (E2 : (fl (qn area) == qn area)%Q) by (apply fl_qn; lia).
    assert (Hp : (0 < qn area)%Q) by (by apply (qn_lt 0)).
    assert (Hle : (qn area <= 8388608 # 1)%Q) by (change (8388608 # 1) with (inject_Z (2 ^ 23)); unfold qn; rewrite <- Zle_Qle; lia).
    unfold ratio. destruct (Qeq_bool (fl (qn area)) 0) eqn:E0; [apply Qeq_bool_iff in E0; rewrite E2 in E0; lra|]. cbn [is_less].
    rewrite Qltb_iff. rewrite (fl_proper (fl (qn nnz) / fl (qn area)) (qn nnz / qn area)) by (by rewrite E1, E2).
    assert (Hc : (fl (1 # 20) == 13421773 # 268435456)%Q) by (by vm_compute).
    assert (Hq : (qn nnz / qn area * qn area == qn nnz)%Q) by (field; lra). set (x := (qn nnz / qn area)%Q) in *.
    assert (Hx : (0 <= x)%Q) by (unfold x; apply Qle_shift_div_l; [done|]; rewrite Qmult_0_l; apply qn_nonneg).
    destruct (fl_err x Hx) as [F1 F2].
    destruct (lt_eq_lt_dec (20 * nnz) area) as [[Hlt|Heq]|Hgt].
    - split; [done|]. intros _. rewrite Hc.
      assert (H1 : (20 * qn nnz + 1 <= qn area)%Q). { change 20%Q with (qn 20). change 1%Q with (qn 1). rewrite <- qn_mul, <- qn_add. apply qn_le. lia. }
      assert (H2 : (x <= (1 # 20) * (1 - (1 # 8388608)))%Q). { apply (Qmult_le_r _ _ (qn area) Hp). rewrite Hq. lra. }
      unfold u in *. lra.
    - split; [|lia]. intros Hb. exfalso. assert (Hx2 : (x == 1 # 20)%Q).
      { apply (Qmult_inj_r _ _ (qn area)); [lra|]. rewrite Hq, <- Heq, qn_mul. change (qn 20) with 20%Q. ring. }
      rewrite (fl_proper _ _ Hx2) in Hb. by apply Qlt_irrefl in Hb.
    - split; [|lia]. intros Hb. exfalso. rewrite Hc in Hb.
      assert (H1 : (qn area + 1 <= 20 * qn nnz)%Q). { change 20%Q with (qn 20). change 1%Q with (qn 1). rewrite <- qn_mul, <- qn_add. apply qn_le. lia. }
      assert (H2 : ((1 # 20) * (1 + (1 # 8388608)) <= x)%Q). { apply (Qmult_le_r _ _ (qn area) Hp). rewrite Hq. lra. }
      unfold u in *. lra.
  Qed.
  Theorem C85_factory_exact (rows cols nnz : nat) : 0 < t -> 0 < i -> 0 < rows -> 0 < cols -> rows * cols < itW ->
    (N.of_nat (coo_size nnz) <= 2 ^ 23)%N -> (N.of_nat (csr_size rows nnz) <= 2 ^ 23)%N -> (N.of_nat (dense_size rows cols) <= 2 ^ 23)%N ->
    float_choose2 t i s rows cols nnz =
      if coo_size nnz <? csr_size rows nnz then K2Coo
      else if dense_size rows cols <=? csr_size rows nnz then K2Dense
      else if 20 * nnz <? rows * cols then K2CsrSerial else K2CsrParallel.
  Proof.
    intros Ht Hi Hr Hc Hw H1 H2 H3.
    assert (L1 : nnz <= coo_size nnz) by (clear -Ht; nia). assert (L2 : rows <= i * rows) by (clear -Hi; nia).
    assert (L3 : rows * cols <= dense_size rows cols) by (clear -Ht; nia). assert (L4 : rows <= rows * cols) by (clear -Hc; nia). assert (L5 : cols <= rows * cols) by (clear -Hr; nia).
    assert (X1 : (size_coo t s nnz == qn (coo_size nnz))%Q) by (apply size_coo_exact; unfold exact; lia).
    assert (X2 : (size_csr t i s rows nnz == qn (csr_size rows nnz))%Q) by (apply size_csr_exact; unfold exact; lia).
    assert (X3 : (size_dense t rows cols == qn (dense_size rows cols))%Q) by (apply size_dense_exact; unfold exact; lia).
    assert (Hb : forall (a b : nat) (p q : Q), (p == qn a)%Q -> (q == qn b)%Q -> Qltb p q = (a <? b)).
    { intros a b p q E1 E2. destruct (Nat.ltb_spec a b) as [Hab|Hab].
      - apply Qltb_iff. rewrite E1, E2. by apply qn_lt.
      - apply Qltb_false. rewrite E1, E2. by apply qn_le. }
    unfold float_choose2. rewrite (Hb _ _ _ _ X1 X2), (Hb _ _ _ _ X2 X3). unfold wmul. rewrite wrap_small by done.
    destruct (coo_size nnz <? csr_size rows nnz); [done|]. rewrite Nat.ltb_antisym. destruct (dense_size rows cols <=? csr_size rows nnz); [done|]. cbn [negb].
    pose proof (below_density nnz (rows * cols) ltac:(nia) ltac:(lia) ltac:(lia)) as Hd.
    destruct (Nat.ltb_spec (20 * nnz) (rows * cols)) as [Hlt|Hge]; [by rewrite (proj2 Hd)|].
    destruct (is_less _ _); [|done]. exfalso. assert (20 * nnz < rows * cols) by (by apply Hd). lia.
  Qed.
  (** when rows * columns wraps around to 0 no block is found sparse, however few elements it has *)
  Theorem C85_density_overflow_refuted (rows cols nnz : nat) : wmul rows cols = 0 -> float_choose2 t i s rows cols nnz <> K2CsrSerial.
  Proof.
    intros Hz. unfold float_choose2. rewrite Hz. destruct (Qltb _ _); [done|]. destruct (Qltb _ _); done.
  Qed.
End C85.
(** with 4-byte values and indices and 2-byte short indices: COO with fewer than two elements per
    row, dense when the empty cells are fewer than rows + nnz / 2 *)
Theorem C85_built `{Widths} (rows cols nnz : nat) : 0 < rows -> 0 < cols -> rows * cols < itW ->
  (N.of_nat (8 * nnz) <= 2 ^ 23)%N -> (N.of_nat (4 * rows + 6 * nnz) <= 2 ^ 23)%N -> (N.of_nat (4 * (rows * cols)) <= 2 ^ 23)%N ->
  (float_choose2 4 4 2 rows cols nnz = K2Coo <-> nnz < 2 * rows) /\
  (float_choose2 4 4 2 rows cols nnz = K2Dense <-> 2 * rows <= nnz /\ 2 * (rows * cols) <= 2 * rows + 3 * nnz) /\
  (float_choose2 4 4 2 rows cols nnz = K2CsrSerial <-> 2 * rows <= nnz /\ 2 * rows + 3 * nnz < 2 * (rows * cols) /\ 20 * nnz < rows * cols).
Proof.
  intros Hr Hc Hw H1 H2 H3. rewrite C85_factory_exact by (try done; lia).
  destruct (Nat.ltb_spec ((2 * 2 + 4) * nnz) (4 * rows + (2 + 4) * nnz)); [|destruct (Nat.leb_spec (rows * cols * 4) (4 * rows + (2 + 4) * nnz)); [|destruct (Nat.ltb_spec (20 * nnz) (rows * cols))]];
    (split; [|split]); split; try done; try lia.
Qed.

(** ** C86: when a Cgbr matrix counts as balanced *)
(** the number of elements in block row br *)
Definition row_count {T : Type} (roff : list nat) (E : list (elem T)) (br : nat) : nat :=
  length (List.filter (fun e => (nth br roff 0 <=? row e) && (row e <? nth (S br) roff 0)) E).
Section balance.
  Lemma float_fixed (f : Q) : (0 <= f)%Q -> is_float f -> (fl f == f)%Q.
  Proof.
    intros Hf Hi. pose proof (proj2 (C84_rounding f Hf) f Hi) as Hb. setoid_replace (f - f)%Q with 0%Q in Hb by ring.
    rewrite (Qabs_pos 0) in Hb by lra. pose proof (Qabs_nonneg (fl f - f)) as Hn.
    pose proof (Qle_Qabs (fl f - f)) as H1. pose proof (Qle_Qabs (f - fl f)) as H2. rewrite Qabs_Qminus in H2. lra.
  Qed.
  Lemma sum_exact (row : list nat) (a : nat) : (N.of_nat (a + sum_list row) <= 2 ^ 24)%N -> forall q, (q == qn a)%Q ->
    (fold_left (fun a n => fl (a + fl (qn n))) row q == qn (a + sum_list row))%Q.
  Proof.
    revert a. induction row as [|n row IH]; intros a Hs q Hq; [cbn; by rewrite Nat.add_0_r|].
    cbn [fold_left]. change (sum_list (n :: row)) with (n + sum_list row) in *. rewrite Nat.add_assoc in *. apply IH; [done|].
    rewrite (fl_proper _ (qn (a + n))); [apply fl_qn; lia|]. rewrite qn_add, Hq, fl_qn by lia. reflexivity.
  Qed.
  (** the decision is exact below 2^23 elements *)
  Lemma balanced_exact (n b : nat) (counts : list (list nat)) : (N.of_nat n < 2 ^ 23)%N -> (N.of_nat b <= 2 ^ 24)%N -> 0 < b ->
    Forall (fun row => (N.of_nat (sum_list row) <= 2 ^ 24)%N) counts ->
    float_balanced n b counts = true <-> Forall (fun row => b * sum_list row <= 2 * n) counts.
  Proof.
    intros Hn Hb Hb0 Hc. unfold float_balanced.
    assert (E1 : (fl (qn n) == qn n)%Q) by (apply fl_qn; lia). assert (E2 : (fl (qn b) == qn b)%Q) by (apply fl_qn; lia).
    assert (Hp : (0 < qn b)%Q) by (by apply (qn_lt 0)).
    unfold ratio. destruct (Qeq_bool (fl (qn b)) 0) eqn:E0; [apply Qeq_bool_iff in E0; rewrite E2 in E0; lra|].
    set (m := fl (fl (qn n) / fl (qn b))). assert (Em : (m == fl (qn n / qn b))%Q) by (apply fl_proper; by rewrite E1, E2).
    assert (Hq : (qn n / qn b * qn b == qn n)%Q) by (field; lra). set (x := (qn n / qn b)%Q) in *.
    assert (Hx : (0 <= x)%Q) by (unfold x; apply Qle_shift_div_l; [done|]; rewrite Qmult_0_l; apply qn_nonneg).
    destruct (fl_err x Hx) as [F1 F2]. rewrite <- Em in F1, F2.
    assert (Hm : (0 <= m)%Q) by (rewrite Em; by apply fl_nonneg).
    assert (Hd : (fl (2 * m) == 2 * m)%Q).
    { apply float_fixed; [lra|]. destruct (proj1 (C84_rounding x Hx)) as (k & e & Hk & Hf). exists k, (e + 1)%Z. split; [done|].
      rewrite Em, Hf, pow2_succ. ring. }
    rewrite forallb_forall, Forall_forall. setoid_rewrite elem_of_list_In. apply forall_proper. intros row.
    enough (Hone : In row counts -> negb (Qltb (fl (2 * m)) (fold_left (fun a n => fl (a + fl (qn n))) row 0%Q)) = true <-> b * sum_list row <= 2 * n).
    { split; intros Hi Hin; apply (Hone Hin); by apply Hi. }
    intros Hin%elem_of_list_In. rewrite Forall_forall in Hc. specialize (Hc row Hin). set (c := sum_list row) in *.
    assert (Es : (fold_left (fun a n => fl (a + fl (qn n))) row 0%Q == qn c)%Q) by (apply (sum_exact row 0); [done|reflexivity]).
    rewrite negb_true_iff, Qltb_false, Es, Hd.
    assert (Hnq : (qn n <= 8388607 # 1)%Q) by (change (8388607 # 1) with (inject_Z (2 ^ 23 - 1)); unfold qn; rewrite <- Zle_Qle; lia).
    assert (Hbc : (qn (b * c) == qn b * qn c)%Q) by apply qn_mul. assert (H2n : (qn (2 * n) == 2 * qn n)%Q) by apply qn_mul.
    assert (M1 : (qn n * (1 - u) <= m * qn b)%Q). { rewrite <- Hq. setoid_replace (x * qn b * (1 - u))%Q with (x * (1 - u) * qn b)%Q by ring. apply Qmult_le_compat_r; [done|lra]. }
    assert (M2 : (m * qn b <= qn n * (1 + u))%Q). { rewrite <- Hq. setoid_replace (x * qn b * (1 + u))%Q with (x * (1 + u) * qn b)%Q by ring. apply Qmult_le_compat_r; [done|lra]. }
    destruct (lt_eq_lt_dec (b * c) (2 * n)) as [[Hlt|Heq]|Hgt].
    - split; [lia|]. intros _. apply (Qmult_le_r _ _ (qn b) Hp).
      assert (H1 : (qn (b * c) + 1 <= qn (2 * n))%Q). { change 1%Q with (qn 1). rewrite <- qn_add. apply qn_le. lia. }
      rewrite Hbc, H2n in H1. unfold u in *. lra.
    - split; [lia|]. intros _. assert (Ex : (2 * x == qn c)%Q).
      { apply (Qmult_inj_r _ _ (qn b)); [lra|]. rewrite <- Heq in H2n. rewrite Hbc in H2n. lra. }
      assert (Hfx : (fl x == x)%Q).
      { apply float_fixed; [done|]. exists (Z.of_nat c), (-1)%Z. split; [lia|]. change (Qpower 2 (-1)) with (1 # 2). fold (qn c). lra. }
      rewrite Em, Hfx, Ex. apply Qle_refl.
    - split; [|lia]. intros Hle. exfalso. assert (H1 : (qn (2 * n) + 1 <= qn (b * c))%Q). { change 1%Q with (qn 1). rewrite <- qn_add. apply qn_le. lia. }
      rewrite Hbc, H2n in H1. apply (Qmult_le_r _ _ (qn b) Hp) in Hle. unfold u in *. lra.
  Qed.
End balance.

Section C86.
  Context {T : Type} `{Scalar T} `{Widths}.
  Implicit Types (B : coo T) (E : list (elem T)) (roff coff : list nat).
  Lemma group_total (nbc bi : nat) (f : nat -> list (elem T)) (K : list nat) : (forall id e, e ∈ f id -> blk e = id) ->
    sum_list ((fun id => length (f id)) <$> group (fun id => id / nbc) bi K) = length (bfilter (fun e => blk e / nbc =? bi) (mjoin (f <$> K))).
  Proof.
    intros Hf. induction K as [|id K IH]; [done|]. change (mjoin (f <$> id :: K)) with (f id ++ mjoin (f <$> K)). unfold group in *. cbn [List.filter]. rewrite bfilter_app, app_length, <- IH.
    unfold has at 1. destruct (Nat.eqb_spec (id / nbc) bi) as [Heq|Hne].
    - cbn [fmap list_fmap]. cbn [sum_list]. cbn. f_equal. assert (Hall : forall l, (forall e, e ∈ l -> blk e = id) -> bfilter (fun e : elem T => blk e / nbc =? bi) l = l).
      { induction l as [|e l IHl]; intros Hl; [done|]. cbn. rewrite (Hl e) by left. rewrite (proj2 (Nat.eqb_eq _ _) Heq). f_equal. apply IHl. intros e' He'. apply Hl. by right. }
      by rewrite Hall by (intros e; apply Hf).
    - rewrite (filter_none _ (f id)); [done|]. apply Forall_forall. intros e He. rewrite (Hf id e He). by apply Nat.eqb_neq.
  Qed.
  Lemma row_loads_total rows cols E roff nbr coff nbc (make : factory) tag (dense : nat -> Prop) :
    blocking roff nbr rows -> blocking coff nbc cols -> in_range rows cols E ->
    (forall id, id ∈ bids roff nbr coff nbc E -> exists (M : gblock T) ty L,
       makes make tag (local roff nbr coff nbc E id) (rsz roff nbc id) (csz coff nbc id) M ty L /\ (~ dense id -> ~ is_dense (gb_mat M))) ->
    (forall id, id ∈ bids roff nbr coff nbc E -> ~ dense id) -> forall br, br < nbr ->
    sum_list (row_loads roff nbr coff nbc E make br) = row_count roff E br.
  Proof.
    intros Hr Hc HE Hmk Hnd br Hbr. unfold row_loads. set (K := brs roff nbr coff nbc E). set (J := bids roff nbr coff nbc E).
    assert (Hload : forall k id, J !! k = Some id -> load_of roff nbr coff nbc E make k = length (blocks_at roff nbr coff nbc E id)).
    { intros k id Hk. unfold load_of. fold J. rewrite (nth_lookup_Some _ k 0 id Hk). cbv zeta.
      pose proof (elem_of_list_lookup_2 _ _ _ Hk) as Hid. destruct (made_makes roff nbr coff nbc E make tag dense Hmk id Hid) as [HM HD].
      specialize (HD (Hnd id Hid)). rewrite (mk_nnz _ _ _ _ _ _ _ _ HM). unfold local. rewrite fmap_length. unfold mblock_load. destruct (gb_mat _); done. }
    assert (Hslice : load_of roff nbr coff nbc E make <$> seq (cntlt K br) (cntlt K (S br) - cntlt K br) =
                     (fun id => length (blocks_at roff nbr coff nbc E id)) <$> group (fun id => id / nbc) br J).
    { assert (Hks : ksorted (fun id => id / nbc) J).
      { pose proof (brs_sorted roff nbr coff nbc E) as Hs. unfold brs in Hs. fold J in Hs. unfold ksorted in *. clear -Hs.
        induction J as [|id J IH]; [constructor|]. cbn [fmap list_fmap] in Hs. apply StronglySorted_inv in Hs as [Hs Hf]. constructor; [by apply IH|].
        rewrite Forall_fmap in Hf. exact Hf. }
      rewrite (group_slice _ J br Hks). change ((fun id => id / nbc) <$> J) with K. rewrite cntlt_S. replace (cntlt K br + cnteq K br - cntlt K br) with (cnteq K br) by lia.
      apply list_eq. intros k. rewrite !list_lookup_fmap. destruct (decide (k < cnteq K br)) as [Hk|Hk].
      - rewrite lookup_seq_lt by done. rewrite (slice_lookup _ _ J k Hk).
        destruct (lookup_lt_is_Some_2 J (cntlt K br + k)) as [id Hid].
        { pose proof (cntlt_le K (S br)) as Hle. rewrite cntlt_S in Hle. assert (HKJ : length K = length J) by apply fmap_length. lia. }
        rewrite Hid. cbn. by rewrite (Hload _ id Hid).
      - rewrite lookup_seq_ge by lia. unfold slice. by rewrite lookup_take_ge by lia. }
    rewrite Hslice. rewrite group_total by (intros id e He; exact (proj2 (blocks_at_elem roff nbr coff nbc E id e He))).
    unfold J. rewrite all_blocks. rewrite (bfilter_perm_length _ _ _ (bsorted_perm roff nbr coff nbc E)). unfold with_ids, row_count.
    clear -Hr Hc HE Hbr. induction HE as [|e E [He1 He2] HE IH]; [done|]. cbn [fmap list_fmap List.filter].
    change (blk (set_blk (block_id roff nbr coff nbc e) e)) with (block_id roff nbr coff nbc e). destruct (block_id_div roff nbr coff nbc cols e Hc He2) as [-> _].
    assert (Heq : (block_of roff nbr (row e) =? br) = (nth br roff 0 <=? row e) && (row e <? nth (S br) roff 0)).
    { destruct (block_of_spec _ _ _ _ Hr He1) as [Hlt Hin]. apply eq_true_iff_eq. rewrite Nat.eqb_eq, andb_true_iff, Nat.leb_le, Nat.ltb_lt. split.
      - intros <-. unfold in_block in Hin. lia.
      - intros Hin'. apply (block_of_unique _ _ _ _ _ Hr Hbr). unfold in_block. lia. }
    rewrite Heq. destruct (_ && _); cbn; [f_equal|]; apply IH.
  Qed.
  (** with fewer than 2^23 elements: balanced exactly when no block row holds more than twice the
      average number of elements of a block row *)
  Theorem C86_balanced (t i s : nat) B roff nbr coff nbc workers : s < t -> t <= 16 -> 0 < i ->
    blockable B roff nbr coff nbc -> workers_ok B workers -> short_type -> short_blocks roff nbr coff nbc ->
    (N.of_nat (c_nnz B) < 2 ^ 23)%N -> (N.of_nat nbr <= 2 ^ 24)%N ->
    exists A balanced parts B', Coo_to_Cgbr (float_choose t i s) float_balanced workers B (full roff) nbr (full coff) nbc = Ok (A, balanced, parts, B') /\
      (balanced = true <-> forall br, br < nbr -> nbr * row_count roff (c_elems B) br <= 2 * c_nnz B).
  Proof.
    destruct B as [rows cols E]. intros S1 S2 S3 HB (W1 & W2 & W3) Hst Hsh Hn Hb.
    assert (Hd : dense_blocks (float_choose t i s) (Coo rows cols E) roff nbr coff nbc small).
    { apply dense_blocks_weaken, float_no_dense; try done. lia. }
    pose proof (makes1 rows cols E roff nbr coff nbc HB Hsh Hst _ Hd) as Hmk.
    pose proof HB as (Hne & HE & Hr & Hc & H1 & H2 & H3 & H4 & H5 & H6). unfold c_nnz in *. cbn [c_rows c_cols c_elems] in *.
    destruct (Coo_to_Cgbr_spec roff nbr rows coff nbc cols E Hr Hc HE Hne H1 H2 H3 H4 H5 H6 (make_block (float_choose t i s)) tag1 _ Hmk _ float_balanced workers eq_refl W1 W2 W3)
      as (parts & HA & _). cbv zeta in HA.
    eexists _, _, parts, _. split; [exact HA|].
    assert (Hnb : 0 < nbr).
    { destruct E as [|e0 l0]; [done|]. apply Forall_inv in HE. destruct HE as [He1 _]. pose proof (block_of_spec _ _ _ _ Hr He1) as [? _]. lia. }
    assert (Htot : forall br, br < nbr -> sum_list (row_loads roff nbr coff nbc E (make_block (float_choose t i s)) br) = row_count roff E br).
    { intros br Hbr. apply (row_loads_total rows cols E roff nbr coff nbc _ tag1 _ Hr Hc HE Hmk); [|done]. intros id Hid.
      apply bids_elem in Hid as (e & He & Hbe). rewrite C84_always_coo; [done|done|done|]. left.
      assert (Hin : e ∈ blocks_at roff nbr coff nbc E id).
      { unfold blocks_at, group. apply elem_of_list_In, filter_In. split; [by apply elem_of_list_In|]. unfold has. by rewrite Hbe, Nat.eqb_refl. }
      unfold local. rewrite fmap_length. destruct (blocks_at roff nbr coff nbc E id); [by apply elem_of_nil in Hin|cbn; lia]. }
    assert (Hle : forall br, row_count roff E br <= length E) by (intros br; unfold row_count; clear; induction E as [|e E IH]; [done|]; cbn [List.filter]; destruct (_ && _); cbn [length]; lia).
    rewrite balanced_exact; [|done|done|done|].
    - rewrite Forall_fmap, Forall_seq. split; intros Hall br Hbr.
      + specialize (Hall br ltac:(lia)). cbn in Hall. by rewrite Htot in Hall.
      + cbn. rewrite Htot by lia. apply Hall. lia.
    - rewrite Forall_fmap, Forall_seq. intros br Hbr. cbn. rewrite Htot by lia. specialize (Hle br). lia.
  Qed.
End C86.

(** ** C87: several elements at one position of a dense block *)
Section C87.
  Context {T : Type} `{Scalar T} `{Widths}.
  Implicit Types (B : coo T) (E : list (elem T)) (x y : list T) (b : buf) (roff coff : list nat).
  (** [E'] is [E] without all but one of the elements of every position of the dense blocks *)
  Definition one_per_position roff (nbr : nat) coff (nbc : nat) (dense : nat -> nat -> Prop) E E' : Prop :=
    coords <$> E' ⊆+ coords <$> E /\
    (forall e, e ∈ E -> exists e', e' ∈ E' /\ row e' = row e /\ col e' = col e) /\
    (forall br bc, br < nbr -> bc < nbc ->
      (dense br bc -> distinct_coords (submatrix roff br coff bc E')) /\
      (~ dense br bc -> same_elements (submatrix roff br coff bc E') (submatrix roff br coff bc E))).
  Lemma thinned_one rows cols E roff nbr coff nbc (make : factory) tag (dense : nat -> Prop) (dense2 : nat -> nat -> Prop) :
    blocking roff nbr rows -> blocking coff nbc cols -> in_range rows cols E ->
    (forall id, id ∈ bids roff nbr coff nbc E -> exists (M : gblock T) ty L,
       makes make tag (local roff nbr coff nbc E id) (rsz roff nbc id) (csz coff nbc id) M ty L /\ (~ dense id -> ~ is_dense (gb_mat M))) ->
    (forall id, id ∈ bids roff nbr coff nbc E -> dense2 (id / nbc) (id mod nbc) -> is_dense (gb_mat (made_block roff nbr coff nbc E make id))) ->
    (forall id, id ∈ bids roff nbr coff nbc E -> ~ dense2 (id / nbc) (id mod nbc) -> ~ dense id) ->
    one_per_position roff nbr coff nbc dense2 E (thinned roff nbr coff nbc E make).
  Proof.
    intros Hr Hc HE Hmk H1 H2. split; [by eapply thinned_sub|]. split; [intros e He; by eapply thinned_covers|].
    intros br bc Hbr Hbc. destruct (block_ids nbr nbc br bc Hbr Hbc) as [D1 D2]. split; intros Hd.
    - eapply (thinned_dense roff nbr rows coff nbc cols E Hr Hc HE make tag dense Hmk); try done. intros Hid. apply H1; [done|]. by rewrite D1, D2.
    - eapply (thinned_plain roff nbr rows coff nbc cols E Hr Hc HE make tag dense Hmk); try done. intros Hid.
      apply (made_makes roff nbr coff nbc E make tag dense Hmk _ Hid). apply H2; [done|]. by rewrite D1, D2.
  Qed.
  Definition goes_dense (choose : nat -> nat -> nat -> kind) E roff coff (br bc : nat) : Prop :=
    choose (block_rows roff br) (block_rows coff bc) (length (submatrix roff br coff bc E)) = KDense.
  Definition goes_dense2 (choose : nat -> nat -> nat -> kind2) E roff coff (br bc : nat) : Prop :=
    choose (block_rows roff br) (block_rows coff bc) (length (submatrix roff br coff bc E)) = K2Dense.
  Theorem C87_cgbr_duplicates (choose : nat -> nat -> nat -> kind) bal B roff nbr coff nbc workers (one : T) : exact_arith T one ->
    blockable B roff nbr coff nbc -> workers_ok B workers -> short_type -> short_blocks roff nbr coff nbc ->
    dense_blocks choose B roff nbr coff nbc small ->
    exists A balanced parts B' E', Coo_to_Cgbr choose bal workers B (full roff) nbr (full coff) nbc = Ok (A, balanced, parts, B') /\
      one_per_position roff nbr coff nbc (goes_dense choose (c_elems B) roff coff) (c_elems B) E' /\
      forall x y b, c_cols B <= length x -> length y = c_rows B ->
        all_schedules (cgbr_spmv A balanced parts x b) (heap_of b y) tt (heap_of b (y_plus_Ax E' (c_cols B) x y)) /\
        all_schedules (cgbr_spmv_serial A x b) (heap_of b y) tt (heap_of b (y_plus_Ax E' (c_cols B) x y)).
  Proof.
    destruct B as [rows cols E]. intros SR HB (W1 & W2 & W3) Hst Hsh Hd.
    pose proof (makes1 rows cols E roff nbr coff nbc HB Hsh Hst choose Hd) as Hmk.
    pose proof HB as (Hne & HE & Hr & Hc & H1 & H2 & H3 & H4 & H5 & H6). unfold c_nnz in *. cbn [c_rows c_cols c_elems] in *.
    destruct (Coo_to_Cgbr_spec roff nbr rows coff nbc cols E Hr Hc HE Hne H1 H2 H3 H4 H5 H6 (make_block choose) tag1 _ Hmk choose bal workers eq_refl W1 W2 W3)
      as (parts & HA & Hg). cbv zeta in HA, Hg. match type of HA with _ = Ok (_, ?v, _, _) => set (balanced := v) in * end.
    eexists _, balanced, parts, _, (thinned roff nbr coff nbc E (make_block choose)). split; [exact HA|]. split.
    - apply (thinned_one rows cols E roff nbr coff nbc _ tag1 _ _ Hr Hc HE Hmk); intros id Hid Hk;
        destruct (block_facts rows cols E roff nbr coff nbc HB Hsh id Hid) as (_ & _ & _ & F4 & F5 & _ & _ & _ & _ & _ & _ & _ & F13).
      + destruct (made_makes roff nbr coff nbc E (make_block choose) tag1 _ Hmk id Hid) as [HM _]. pose proof (mk_ok _ _ _ _ _ _ _ _ HM) as Hok.
        unfold make_block in Hok at 1. unfold goes_dense in Hk. rewrite F4, F5, F13, Hk in Hok. destruct (Coo_to_Dense _ _ _); try done. cbn [mbind outcome_bind] in Hok.
        injection Hok as Hok _ _. rewrite <- Hok. done.
      + unfold goes_dense in Hk. by rewrite F4, F5, F13.
    - intros x y b Hx Hy. pose proof (rows_thin roff nbr rows coff nbc cols E Hr Hc HE (make_block choose) tag1 _ Hmk one SR x y Hy) as Hrow. split.
      + unfold cgbr_spmv. destruct balanced.
        * rewrite <- Hrow. eapply matrix_balanced; first [exact Hmk|done].
        * specialize (Hg eq_refl). rewrite <- (chunks_thin roff nbr rows coff nbc cols E Hr Hc HE (make_block choose) tag1 _ Hmk one SR x parts y Hy Hg).
          eapply matrix_unbalanced; first [exact Hmk|exact Hg|done].
      + rewrite <- Hrow. eapply matrix_serial; first [exact Hmk|done].
  Qed.
  Theorem C87_cgbr2_duplicates (choose : nat -> nat -> nat -> kind2) B roff nbr coff nbc workers (one : T) : exact_arith T one ->
    blockable B roff nbr coff nbc -> workers_ok B workers -> short_type -> short_blocks roff nbr coff nbc ->
    (forall br bc, br < nbr -> bc < nbc -> goes_dense2 choose (c_elems B) roff coff br bc -> block_rows roff br * block_rows coff bc < itW) ->
    exists A parts B' E', Coo_to_Cgbr2 (make_block2 (fun L r c => choose r c (length L))) workers B (full roff) nbr (full coff) nbc = Ok (A, parts, B') /\
      one_per_position roff nbr coff nbc (goes_dense2 choose (c_elems B) roff coff) (c_elems B) E' /\
      forall x y b balanced, c_cols B <= length x -> length y = c_rows B ->
        all_schedules (cgbr2_spmv A balanced parts x b) (heap_of b y) tt (heap_of b (y_plus_Ax E' (c_cols B) x y)).
  Proof.
    destruct B as [rows cols E]. intros SR HB (W1 & W2 & W3) Hst Hsh Hd. set (ch := fun (L : list (elem T)) r c => choose r c (length L)).
    assert (Hd2 : dense_blocks2 ch (Coo rows cols E) roff nbr coff nbc small).
    { intros br bc L Hbr Hbc Hs Hk. unfold ch in Hk. assert (HL : length L = length (submatrix roff br coff bc E)).
      { unfold same_elements in Hs. apply Permutation_length in Hs. by rewrite !fmap_length in Hs. }
      apply Hd; [done|done|]. unfold goes_dense2. cbn [c_elems]. by rewrite <- HL. }
    pose proof (makes2 rows cols E roff nbr coff nbc HB Hsh ch Hd2) as Hmk.
    pose proof HB as (Hne & HE & Hr & Hc & H1 & H2 & H3 & H4 & H5 & H6). unfold c_nnz in *. cbn [c_rows c_cols c_elems] in *.
    destruct (Coo_to_Cgbr2_spec roff nbr rows coff nbc cols E Hr Hc HE Hne H1 H2 H3 H4 H5 H6 (make_block2 ch) tag2 _ Hmk workers W1 W2 W3)
      as (parts & HA & Hg).
    eexists _, parts, _, (thinned roff nbr coff nbc E (make_block2 ch)). split; [exact HA|]. split.
    - apply (thinned_one rows cols E roff nbr coff nbc _ tag2 _ _ Hr Hc HE Hmk); intros id Hid Hk;
        destruct (block_facts rows cols E roff nbr coff nbc HB Hsh id Hid) as (_ & _ & _ & F4 & F5 & _ & _ & _ & _ & _ & _ & _ & F13).
      + destruct (made_makes roff nbr coff nbc E (make_block2 ch) tag2 _ Hmk id Hid) as [HM _]. pose proof (mk_ok _ _ _ _ _ _ _ _ HM) as Hok.
        unfold make_block2 in Hok at 1. unfold goes_dense2 in Hk. change (ch ?l ?r ?c) with (choose r c (length l)) in Hok. rewrite F4, F5, F13, Hk in Hok. destruct (dense_fill _ _ _); try done. cbn [mbind outcome_bind] in Hok.
        injection Hok as Hok _ _. rewrite <- Hok. done.
      + unfold goes_dense2 in Hk. change (ch ?l ?r ?c) with (choose r c (length l)). by rewrite F4, F5, F13.
    - intros x y b balanced Hx Hy. unfold cgbr2_spmv. destruct balanced.
      + rewrite <- (rows_thin roff nbr rows coff nbc cols E Hr Hc HE (make_block2 ch) tag2 _ Hmk one SR x y Hy). eapply matrix_balanced; first [exact Hmk|done].
      + rewrite <- (chunks_thin roff nbr rows coff nbc cols E Hr Hc HE (make_block2 ch) tag2 _ Hmk one SR x parts y Hy Hg).
        eapply matrix_unbalanced; first [exact Hmk|exact Hg|done].
  Qed.
End C87.

Section distinct.
  Context {T : Type} `{Scalar T} `{Widths}.
  Implicit Types (B : coo T) (E : list (elem T)) (x y : list T) (b : buf) (roff coff : list nat).
  Lemma submatrix_distinct roff br coff bc E : distinct_coords E -> distinct_coords (submatrix roff br coff bc E).
  Proof.
    intros HE. unfold submatrix, distinct_coords in *. rewrite <- list_fmap_compose. induction E as [|e E IH]; [constructor|].
    rewrite fmap_cons in HE. apply NoDup_cons in HE as [Hn HE]. cbn [List.filter].
    destruct ((nth br roff 0 <=? row e) && (row e <? nth (S br) roff 0) && (nth bc coff 0 <=? col e) && (col e <? nth (S bc) coff 0)) eqn:Hx; [|by apply IH].
    rewrite fmap_cons. constructor; [|by apply IH]. intros (e' & Heq & He')%elem_of_list_fmap. apply elem_of_list_In, filter_In in He' as [Hin He'].
    unfold compose in Heq. cbn [row col] in Heq. injection Heq as E1 E2. rewrite !andb_true_iff, !Nat.leb_le, !Nat.ltb_lt in Hx, He'.
    apply Hn, elem_of_list_fmap. exists e'. split; [f_equal; lia|by apply elem_of_list_In].
  Qed.
  Lemma y_plus_Ax_coords E E' (cols : nat) x y (one : T) : exact_arith T one -> same_elements E E' -> y_plus_Ax E cols x y = y_plus_Ax E' cols x y.
  Proof.
    intros SR Hs. set (strip := fun e : elem T => Elem (row e) (col e) (val e) 0). set (of := fun c : nat * nat * T => Elem c.1.1 c.1.2 c.2 0).
    assert (He : forall E i j, entry (strip <$> E) i j = entry E i j).
    { intros E0 i j. unfold entry. induction E0 as [|e E0 IH]; [done|]. rewrite fmap_cons. cbn [List.filter]. change (row (strip e)) with (row e). change (col (strip e)) with (col e).
      destruct (_ && _); [|done]. rewrite !fmap_cons. unfold sum in *. cbn [fold_right]. by rewrite IH. }
    assert (Hy : forall E, y_plus_Ax (strip <$> E) cols x y = y_plus_Ax E cols x y).
    { intros E0. unfold y_plus_Ax. apply imap_ext. intros i yi _. unfold dot. do 2 f_equal. apply list_fmap_ext. intros k j _. by rewrite He. }
    rewrite <- (Hy E), <- (Hy E'). apply (y_plus_Ax_perm one SR).
    assert (Hof : forall E, strip <$> E = of <$> (coords <$> E)) by (intros E0; by rewrite <- list_fmap_compose).
    rewrite !Hof. unfold same_elements in Hs. by rewrite Hs.
  Qed.
  (** ** C85: Cgbr2 with the default factory multiplies right if no position is repeated *)
  Theorem C85_cgbr2_spmv (t i s : nat) B roff nbr coff nbc workers x y b (one : T) : exact_arith T one ->
    blockable B roff nbr coff nbc -> workers_ok B workers -> short_type -> short_blocks roff nbr coff nbc ->
    (forall br bc, br < nbr -> bc < nbc -> block_rows roff br * block_rows coff bc < itW) ->
    distinct_coords (c_elems B) -> c_cols B <= length x -> length y = c_rows B ->
    exists A parts B', Coo_to_Cgbr2 (make_block2 (fun L r c => float_choose2 t i s r c (length L))) workers B (full roff) nbr (full coff) nbc = Ok (A, parts, B') /\
      forall balanced, all_schedules (cgbr2_spmv A balanced parts x b) (heap_of b y) tt (heap_of b (y_plus_Ax (c_elems B) (c_cols B) x y)).
  Proof.
    intros SR HB HW Hst Hsh Hs Hd Hx Hy. apply (C34_cgbr2_spmv _ B roff nbr coff nbc workers x y b one); try done.
    intros br bc L Hbr Hbc HL _. split; [by apply Hs|]. eapply same_elements_distinct; [unfold same_elements in *; symmetry; exact HL|]. by apply submatrix_distinct.
  Qed.
End distinct.

(** repeated positions are lost: a 2 x 2 block with 4 elements becomes dense and the product of
    this matrix with (1, 1) is (2, 1), not (3, 1) *)
Definition dup_B : coo Z := Coo 2 2 [Elem 0 0 1%Z 0; Elem 0 1 1%Z 0; Elem 1 1 1%Z 0; Elem 0 0 1%Z 0].
Lemma dup_blockable : @blockable default_widths Z dup_B [0; 2] 1 [0; 2] 1 /\ @workers_ok default_widths Z dup_B 1 /\ @short_type default_widths /\
  @short_blocks default_widths [0; 2] 1 [0; 2] 1.
Proof.
  assert (HB : in_range 2 2 (c_elems dup_B)) by (repeat constructor; cbn; lia).
  assert (Hbl : blocking [0; 2] 1 2) by (split; [done|]; split; [done|]; split; [done|]; intros [|b] Hb; cbn; lia).
  unfold workers_ok, c_nnz. cbn [c_rows c_cols c_elems dup_B length].
  split; [|split; [|split]].
  - apply blockable_few. unfold c_nnz. cbn [c_rows c_cols c_elems dup_B length]. repeat match goal with |- _ /\ _ => split end; first [done | exact HB | exact Hbl | apply default_big; done | lia].
  - repeat match goal with |- _ /\ _ => split end; first [done | apply default_big; done | lia].
  - unfold short_type; cbn [itW sitW default_widths]; right; split; lia.
  - split; intros [|bi] Hb; try lia; by apply default_small.
Qed.
Lemma dup_thin (E' : list (elem Z)) : coords <$> E' ⊆+ coords <$> c_elems dup_B ->
  (forall e, e ∈ c_elems dup_B -> exists e', e' ∈ E' /\ row e' = row e /\ col e' = col e) ->
  distinct_coords (submatrix [0; 2] 0 [0; 2] 0 E') -> same_elements E' [Elem 0 0 1%Z 0; Elem 0 1 1%Z 0; Elem 1 1 1%Z 0].
Proof.
    intros Hsub Hcov Hd.
    assert (Hin : forall e, e ∈ E' -> coords e ∈ [(0, 0, 1%Z); (0, 1, 1%Z); (1, 1, 1%Z)]).
    { intros e He. assert (Hc : coords e ∈ coords <$> c_elems dup_B) by (eapply elem_of_submseteq; [|exact Hsub]; by apply elem_of_list_fmap_1).
      change (coords <$> c_elems dup_B) with [(0, 0, 1%Z); (0, 1, 1%Z); (1, 1, 1%Z); (0, 0, 1%Z)] in Hc. clear -Hc. rewrite !elem_of_cons in Hc. rewrite !elem_of_cons. tauto. }
    unfold same_elements. apply NoDup_Permutation.
    - assert (Hn : NoDup ((fun e => (row e, col e)) <$> E')).
      { unfold distinct_coords, submatrix in Hd. rewrite <- list_fmap_compose in Hd.
        assert (Hf : bfilter (fun e : elem Z => (nth 0 [0; 2] 0 <=? row e) && (row e <? nth 1 [0; 2] 0) && (nth 0 [0; 2] 0 <=? col e) && (col e <? nth 1 [0; 2] 0)) E' = E').
        { clear -Hin. induction E' as [|e E' IH]; [done|]. cbn [List.filter]. rewrite IH by (intros e' He'; apply Hin; by right).
          assert (He : row e < 2 /\ col e < 2). { specialize (Hin e ltac:(left)). unfold coords in Hin. rewrite !elem_of_cons in Hin. destruct Hin as [Hin|[Hin|[Hin|Hin]]]; [injection Hin; lia..|by apply elem_of_nil in Hin]. }
          cbn [nth]. rewrite !(proj2 (Nat.leb_le 0 _)) by lia. rewrite !(proj2 (Nat.ltb_lt _ 2)) by lia. done. }
        rewrite Hf in Hd. erewrite list_fmap_ext; [exact Hd|]. intros k e _. unfold compose. cbn [row col nth]. by rewrite !Nat.sub_0_r. }
      clear -Hn. induction E' as [|e E' IH]; [constructor|]. rewrite fmap_cons in *. apply NoDup_cons in Hn as [Hn1 Hn]. constructor; [|by apply IH].
      intros (e' & Heq & He')%elem_of_list_fmap. apply Hn1, elem_of_list_fmap. exists e'. split; [|done]. unfold coords in Heq. congruence.
    - apply (bool_decide_unpack _); vm_compute; exact Logic.I.
    - intros c. split; [intros (e & -> & He)%elem_of_list_fmap; by apply Hin|].
      assert (Hback : forall r k, (exists e, e ∈ c_elems dup_B /\ row e = r /\ col e = k) -> (r, k, 1%Z) ∈ coords <$> E').
      { intros r k (e & He & <- & <-). destruct (Hcov e He) as (e' & He' & <- & <-). apply elem_of_list_fmap. exists e'. split; [|done].
        specialize (Hin e' He'). unfold coords in *. rewrite !elem_of_cons in Hin. destruct Hin as [Hin|[Hin|[Hin|Hin]]]; [congruence..|by apply elem_of_nil in Hin]. }
      cbn [fmap list_fmap coords row col val]. rewrite !elem_of_cons. intros [->|[->|[->|Hc]]]; [| | |by apply elem_of_nil in Hc]; apply Hback.
      + exists (Elem 0 0 1%Z 0). split; [left|done].
      + exists (Elem 0 1 1%Z 0). split; [right; left|done].
      + exists (Elem 1 1 1%Z 0). split; [right; right; left|done].
Qed.
Theorem C87_duplicates_lost_refuted (b : buf) (balanced : bool) : exists A parts B',
  Coo_to_Cgbr2 (H0 := default_widths) (make_block2 (H0 := default_widths) (fun L r c => @float_choose2 4 4 2 default_widths r c (length L))) 1 dup_B (full [0; 2]) 1 (full [0; 2]) 1 = Ok (A, parts, B') /\
  all_schedules (cgbr2_spmv (H0 := default_widths) A balanced parts [1; 1]%Z b) (heap_of b [0; 0]%Z) tt (heap_of b [2; 1]%Z) /\
  y_plus_Ax (c_elems dup_B) 2 [1; 1]%Z [0; 0]%Z = [3; 1]%Z.
Proof.
  destruct dup_blockable as (H1 & H2 & H3 & H4).
  assert (Hdense : @goes_dense2 Z (@float_choose2 4 4 2 default_widths) (c_elems dup_B) [0; 2] [0; 2] 0 0).
  { unfold goes_dense2. change (block_rows [0; 2] 0) with 2. change (length _) with 4. 
    apply (C85_built (H := default_widths) 2 2 4); try lia; by apply default_big. }
  destruct (C87_cgbr2_duplicates (H0 := default_widths) (@float_choose2 4 4 2 default_widths) dup_B [0; 2] 1 [0; 2] 1 1 1%Z exact_Z H1 H2 H3 H4) as (A & parts & B' & E' & HA & HE & HS).
  { intros [|br] [|bc] Hbr Hbc _; try lia. by apply default_big. }
  exists A, parts, B'. split; [exact HA|]. split; [|done].
  assert (Hsame : same_elements E' [Elem 0 0 1%Z 0; Elem 0 1 1%Z 0; Elem 1 1 1%Z 0]).
  { destruct HE as (Hsub & Hcov & Hblk). apply dup_thin; [exact Hsub|exact Hcov|]. apply (proj1 (Hblk 0 0 ltac:(lia) ltac:(lia))). exact Hdense. }
  specialize (HS [1; 1]%Z [0; 0]%Z b balanced ltac:(done) ltac:(done)). cbn [c_cols dup_B] in HS.
  rewrite (y_plus_Ax_coords _ _ 2 [1; 1]%Z [0; 0]%Z 1%Z exact_Z Hsame) in HS.
  replace (y_plus_Ax [Elem 0 0 1%Z 0; Elem 0 1 1%Z 0; Elem 1 1 1%Z 0] 2 [1; 1]%Z [0; 0]%Z) with [2; 1]%Z in HS by (by vm_compute). exact HS.
Qed.

(** beyond 2^24 the sizes are rounded and a smaller COO block may go unnoticed: 2^25 + 1 elements
    in 2^24 + 1 rows take 2 bytes less as COO than as CSR, but are not stored as COO *)
Theorem C85_rounding_refuted `{Widths} (cols : nat) (rows := N.to_nat 16777217) (nnz := N.to_nat 33554433) :
  (2 * 2 + 4) * nnz < 4 * rows + (2 + 4) * nnz /\ float_choose2 4 4 2 rows cols nnz <> K2Coo.
Proof.
  assert (Er : Z.of_nat rows = 16777217%Z) by (unfold rows; by rewrite N_nat_Z).
  assert (En : Z.of_nat nnz = 33554433%Z) by (unfold nnz; by rewrite N_nat_Z). clearbody rows nnz.
  split; [lia|]. unfold float_choose2, size_coo, size_csr, qn. rewrite Nat2Z.inj_mul, Er, En.
  replace (Qltb _ _) with false by (by vm_compute). destruct (Qltb _ _); [destruct (is_less _ _)|]; done.
Qed.

(** ** the hypotheses are met *)
(** ex_B has two elements at one position; the driver programs use float, uint32_t, uint16_t *)
Example C84_C87_ex : 2 < 4 /\ 4 <= 16 /\
  @blockable default_widths Z ex_B [0; 2; 4] 2 [0; 3; 5] 2 /\ @workers_ok default_widths Z ex_B 4 /\ @short_type default_widths /\
  @short_blocks default_widths [0; 2; 4] 2 [0; 3; 5] 2 /\ ~ distinct_coords (c_elems ex_B) /\ exact_arith Z 1%Z /\
  (N.of_nat (c_nnz ex_B) < 2 ^ 23)%N /\ row_count [0; 2; 4] (c_elems ex_B) 0 = 3 /\ row_count [0; 2; 4] (c_elems ex_B) 1 = 2 /\
  (forall br bc, br < 2 -> bc < 2 -> block_rows [0; 2; 4] br * block_rows [0; 3; 5] bc < @itW default_widths).
Proof.
  destruct C33_C43_ex as (H1 & H2 & H3 & H4 & _). split; [lia|]. split; [lia|]. split; [exact H1|]. split; [exact H2|]. split; [exact H3|]. split; [exact H4|].
  split. { intros Hn. unfold distinct_coords in Hn. apply (bool_decide_pack _) in Hn. vm_compute in Hn. exact Hn. }
  split; [apply exact_Z|]. split; [by vm_compute|]. split; [by vm_compute|]. split; [by vm_compute|].
  intros [|[|br]] [|[|bc]] Hbr Hbc; try lia; by apply default_big.
Qed.
(** the balance test answers both ways, with and without rounding of the mean *)
Example C86_ex : float_balanced 5 2 [[2; 1]; [2]] = true /\ float_balanced 7 3 [[3; 2]; [1]; [1]] = false /\ float_balanced 10 3 [[6]; [4]; []] = true /\
  Forall (fun row => (N.of_nat (sum_list row) <= 2 ^ 24)%N) [[3; 2]; [1]; [1]].
Proof. split; [by vm_compute|]. split; [by vm_compute|]. split; [by vm_compute|]. repeat constructor; by vm_compute. Qed.
(** in general, for blocks whose sizes are below 2^22 bytes and whose area is at most 2^21: COO if
    it takes less than 3/2 the bytes of CSR, else CSR if less than 3 in 10 cells are filled, else
    dense *)
Lemma below_three_tenths (nnz rows cols : nat) : 0 < rows * cols -> (N.of_nat nnz <= 2 ^ 23)%N -> (N.of_nat (rows * cols) <= 2 ^ 21)%N ->
  is_less (ratio (fl (qn nnz)) (fl (fl (qn rows) * fl (qn cols)))) (fl (3 # 10)) = (10 * nnz <? 3 * (rows * cols)).
Proof.
  intros Ha Hn Har. assert (Hr1 : rows <= rows * cols) by (clear -Ha; destruct cols; nia). assert (Hc1 : cols <= rows * cols) by (clear -Ha; destruct rows; nia).
  assert (E1 : (fl (qn nnz) == qn nnz)%Q) by (apply fl_qn; lia).
  assert (E2 : (fl (fl (qn rows) * fl (qn cols)) == qn (rows * cols))%Q).
  { rewrite (fl_proper _ (qn (rows * cols))); [apply fl_qn; lia|]. rewrite (fl_qn rows), (fl_qn cols) by lia. by rewrite qn_mul. }
  generalize dependent (rows * cols). intros area Ha Har _ _ E2.
  assert (Hp : (0 < qn area)%Q) by (by apply (qn_lt 0)).
  assert (Hle : (qn area <= 2097152 # 1)%Q) by (change (2097152 # 1) with (inject_Z (2 ^ 21)); unfold qn; rewrite <- Zle_Qle; lia).
  unfold ratio. destruct (Qeq_bool (fl (fl (qn rows) * fl (qn cols))) 0) eqn:E0; [apply Qeq_bool_iff in E0; rewrite E2 in E0; lra|]. cbn [is_less].
  assert (Hc : (fl (3 # 10) == 10066330 # 33554432)%Q) by (by vm_compute).
  assert (Hq : (qn nnz / qn area * qn area == qn nnz)%Q) by (field; lra). 
  assert (Hfl : (fl (fl (qn nnz) / fl (fl (qn rows) * fl (qn cols))) == fl (qn nnz / qn area))%Q) by (apply fl_proper; by rewrite E1, E2).
  set (x := (qn nnz / qn area)%Q) in *.
  assert (Hx : (0 <= x)%Q) by (unfold x; apply Qle_shift_div_l; [done|]; rewrite Qmult_0_l; apply qn_nonneg).
  destruct (fl_err x Hx) as [F1 F2].
  destruct (Nat.ltb_spec (10 * nnz) (3 * area)) as [Hlt|Hge].
  - apply Qltb_iff. rewrite Hfl, Hc.
    assert (H1 : (10 * qn nnz + 1 <= 3 * qn area)%Q). { change 10%Q with (qn 10). change 3%Q with (qn 3). change 1%Q with (qn 1). rewrite <- !qn_mul, <- qn_add. apply qn_le. lia. }
    assert (H2 : (x <= (3 # 10) * (1 - (1 # 6291456)))%Q). { apply (Qmult_le_r _ _ (qn area) Hp). rewrite Hq. lra. }
    unfold u in *. lra.
  - apply Qltb_false. rewrite Hfl. destruct (decide (10 * nnz = 3 * area)) as [Heq|Hne].
    + assert (Hx2 : (x == 3 # 10)%Q).
      { apply (Qmult_inj_r _ _ (qn area)); [lra|]. rewrite Hq. assert (He : (qn 10 * qn nnz == qn 3 * qn area)%Q) by (rewrite <- !qn_mul, Heq; reflexivity).
        change (qn 10) with 10%Q in He. change (qn 3) with 3%Q in He. lra. }
      rewrite (fl_proper _ _ Hx2). apply Qle_refl.
    + rewrite Hc. assert (H1 : (3 * qn area + 1 <= 10 * qn nnz)%Q). { change 10%Q with (qn 10). change 3%Q with (qn 3). change 1%Q with (qn 1). rewrite <- !qn_mul, <- qn_add. apply qn_le. lia. }
      assert (H2 : ((3 # 10) * (1 + (1 # 6291456)) <= x)%Q). { apply (Qmult_le_r _ _ (qn area) Hp). rewrite Hq. lra. }
      unfold u in *. lra.
Qed.
Theorem C84_choice_exact (t i s rows cols nnz : nat) : 0 < t -> 0 < i -> 0 < rows -> 0 < cols -> (N.of_nat (rows * cols) <= 2 ^ 21)%N ->
  (N.of_nat ((2 * s + t) * nnz) <= 2 ^ 22)%N -> (N.of_nat (i * rows + (s + t) * nnz) <= 2 ^ 22)%N ->
  float_choose t i s rows cols nnz =
    if 2 * ((2 * s + t) * nnz) <? 3 * (i * rows + (s + t) * nnz) then KCoo
    else if 10 * nnz <? 3 * (rows * cols) then KCsr else KDense.
Proof.
  intros Ht Hi Hr Hc Ha H1 H2.
  assert (L1 : nnz <= (2 * s + t) * nnz) by (clear -Ht; nia). assert (L2 : rows <= i * rows) by (clear -Hi; nia).
  assert (X1 : (size_coo t s nnz == qn ((2 * s + t) * nnz))%Q) by (apply size_coo_exact; unfold exact; lia).
  assert (X2 : (size_csr t i s rows nnz == qn (i * rows + (s + t) * nnz))%Q) by (apply size_csr_exact; unfold exact; lia).
  unfold float_choose. rewrite below_three_tenths; [|clear -Hr Hc; nia|clear -H1 L1; lia|exact Ha].
  set (a := (2 * s + t) * nnz) in *. set (c := i * rows + (s + t) * nnz) in *.
  assert (X3 : (fl ((3 # 2) * size_csr t i s rows nnz) == (3 # 2) * qn c)%Q).
  { rewrite (fl_proper _ ((3 # 2) * qn c)) by (by rewrite X2). apply float_fixed; [pose proof (qn_nonneg c); lra|].
    exists (3 * Z.of_nat c)%Z, (-1)%Z. split; [lia|]. rewrite inject_Z_mult. change (Qpower 2 (-1)) with (1 # 2). change (inject_Z 3) with 3%Q. unfold qn. lra. }
  destruct (Nat.ltb_spec (2 * a) (3 * c)) as [Hlt|Hge].
  - rewrite (proj2 (Qltb_iff _ _)); [done|]. rewrite X1, X3. apply qn_lt in Hlt. rewrite !qn_mul in Hlt. change (qn 2) with 2%Q in Hlt. change (qn 3) with 3%Q in Hlt. lra.
  - rewrite (proj2 (Qltb_false _ _)); [done|]. rewrite X1, X3. apply qn_le in Hge. rewrite !qn_mul in Hge. change (qn 2) with 2%Q in Hge. change (qn 3) with 3%Q in Hge. lra.
Qed.
(** with wide short indices Cgbr uses the other formats too *)
Example C84_other_ex : float_choose 4 4 8 1 4 4 = KDense /\ float_choose 4 4 8 1 40 4 = KCsr /\ float_choose 4 4 4 3 5 4 = KCoo /\
  (0 < 4 * 3 /\ (N.of_nat (3 * (4 * 3) + 3 * (2 * 4) * 4) <= 2 ^ 24)%N).
Proof. split; [by vm_compute|]. split; [by vm_compute|]. split; [by vm_compute|]. split; [lia|by vm_compute]. Qed.
Example C85_ex : @float_choose2 4 4 2 default_widths 10 10 5 = K2Coo /\ @float_choose2 4 4 2 default_widths 2 2 4 = K2Dense /\
  @float_choose2 4 4 2 default_widths 10 100 30 = K2CsrSerial /\ @float_choose2 4 4 2 default_widths 10 100 60 = K2CsrParallel /\
  clearly_below (8 * 5) (4 * 10 + 6 * 5).
Proof.
  assert (Hb : forall n : nat, (N.of_nat n < 2 ^ 32)%N -> n < @itW default_widths) by apply default_big.
  split; [apply (C85_built (H := default_widths)); try lia; by apply Hb|].
  split; [apply (C85_built (H := default_widths)); try lia; by apply Hb|].
  split; [apply (C85_built (H := default_widths)); try lia; by apply Hb|].
  split; [|by vm_compute].
  rewrite C85_factory_exact; [done|lia..|by apply Hb|by vm_compute|by vm_compute|by vm_compute].
Qed.
