(** ChoiceProof.v: facts about rounding ([fl]) and about the decisions in Choice.v. *)
From Verif Require Export Choice.
From Coq Require Import QArith Qpower Qround Lqa ZifyNat.
Local Open Scope nat_scope.

Lemma pow2_pos (e : Z) : (0 < Qpower 2 e)%Q.
Proof. apply Qpower_0_lt. done. Qed.
Lemma pow2_add (a c : Z) : (Qpower 2 (a + c) == Qpower 2 a * Qpower 2 c)%Q.
Proof. apply Qpower_plus. done. Qed.
Lemma pow2_inject (n : Z) : (0 <= n)%Z -> (Qpower 2 n == inject_Z (2 ^ n))%Q.
Proof. intros Hn. by rewrite (Zpower_Qpower 2 n Hn). Qed.
Lemma pow2_succ (e : Z) : (Qpower 2 (e + 1) == 2 * Qpower 2 e)%Q.
Proof. rewrite pow2_add. change (Qpower 2 1) with 2%Q. ring. Qed.
Lemma pow2_mono (a c : Z) : (a <= c)%Z -> (Qpower 2 a <= Qpower 2 c)%Q.
Proof. intros Hac. apply Qpower_le_compat_l; [done|]. by unfold Qle; simpl. Qed.
Lemma num_den (q : Q) : (q * inject_Z (Zpos (Qden q)) == inject_Z (Qnum q))%Q.
Proof. destruct q as [a b]. unfold Qeq. simpl. lia. Qed.
Lemma exponent_spec (q : Q) : (0 < q)%Q -> (Qpower 2 (exponent q) <= q /\ q < Qpower 2 (exponent q + 1))%Q.
Proof.
  intros Hq. assert (Ha : (0 < Qnum q)%Z) by (unfold Qlt in Hq; simpl in Hq; lia).
  pose proof (num_den q) as Hnd. set (a := Qnum q) in *. set (b := Zpos (Qden q)) in *. assert (Hb : (0 < b)%Z) by done.
  destruct (Z.log2_spec a Ha) as [A1 A2]. destruct (Z.log2_spec b Hb) as [B1 B2].
  pose proof (Z.log2_nonneg a) as La. pose proof (Z.log2_nonneg b) as Lb.
  rewrite Zle_Qle, <- pow2_inject in A1 by done. rewrite Zle_Qle, <- pow2_inject in B1 by done.
  rewrite Zlt_Qlt, <- pow2_inject in A2 by lia. rewrite Zlt_Qlt, <- pow2_inject in B2 by lia.
  assert (Hbq : (0 < inject_Z b)%Q) by (by rewrite <- (Zlt_Qlt 0)).
  unfold exponent. fold a b. set (k := (Z.log2 a - Z.log2 b)%Z).
  assert (Hup : (q < Qpower 2 (k + 1))%Q).
  { apply (Qmult_lt_r _ _ (inject_Z b) Hbq). rewrite Hnd. eapply Qlt_le_trans; [exact A2|].
    replace (Z.succ (Z.log2 a)) with (k + 1 + Z.log2 b)%Z by lia. rewrite pow2_add. apply Qmult_le_l; [apply pow2_pos|done]. }
  assert (Hlo : (Qpower 2 (k - 1) <= q)%Q).
  { apply (Qmult_le_r _ _ (inject_Z b) Hbq). rewrite Hnd. eapply Qle_trans; [|exact A1].
    replace (Z.log2 a) with (k - 1 + Z.succ (Z.log2 b))%Z by lia. rewrite pow2_add. apply Qmult_le_l; [apply pow2_pos|]. by apply Qlt_le_weak. }
  destruct (Qle_bool (Qpower 2 k) q) eqn:Hk.
  - apply Qle_bool_iff in Hk. done.
  - split; [done|]. replace (k - 1 + 1)%Z with k by lia. apply Qnot_le_lt. intros Hle. apply Qle_bool_iff in Hle. congruence.
Qed.
Lemma exponent_unique (q : Q) (e : Z) : (Qpower 2 e <= q)%Q -> (q < Qpower 2 (e + 1))%Q -> exponent q = e.
Proof.
  intros H1 H2. assert (Hq : (0 < q)%Q) by (eapply Qlt_le_trans; [apply pow2_pos|exact H1]).
  destruct (exponent_spec q Hq) as [E1 E2].
  assert (A : (exponent q < e + 1)%Z).
  { apply Z.nle_gt. intros Hle. apply pow2_mono in Hle. apply (Qlt_irrefl q). eapply Qlt_le_trans; [exact H2|]. eapply Qle_trans; [exact Hle|done]. }
  assert (B : (e < exponent q + 1)%Z).
  { apply Z.nle_gt. intros Hle. apply pow2_mono in Hle. apply (Qlt_irrefl q). eapply Qlt_le_trans; [exact E2|]. eapply Qle_trans; [exact Hle|done]. }
  lia.
Qed.
Lemma exponent_proper (q q' : Q) : (0 < q)%Q -> (q == q')%Q -> exponent q = exponent q'.
Proof. intros Hq E. symmetry. destruct (exponent_spec q Hq) as [E1 E2]. apply exponent_unique; by rewrite <- E. Qed.

Lemma nearest_proper (q q' : Q) : (q == q')%Q -> nearest q = nearest q'.
Proof.
  intros E. unfold nearest. rewrite (Qfloor_comp _ _ E). set (f := Qfloor q').
  assert (Hc : (q - inject_Z f ?= 1 # 2)%Q = (q' - inject_Z f ?= 1 # 2)%Q) by (by rewrite E). by rewrite Hc.
Qed.
Lemma nearest_err (q : Q) : (q - (1 # 2) <= inject_Z (nearest q) <= q + (1 # 2))%Q.
Proof.
  unfold nearest. pose proof (Qfloor_le q) as F1. pose proof (Qlt_floor q) as F2. set (f := Qfloor q) in *.
  rewrite inject_Z_plus in F2. change (inject_Z 1) with 1%Q in F2.
  destruct (Qcompare_spec (q - inject_Z f) (1 # 2)) as [Hc|Hc|Hc].
  - destruct (Z.even f); rewrite ?inject_Z_plus; change (inject_Z 1) with 1%Q; lra.
  - lra.
  - rewrite inject_Z_plus; change (inject_Z 1) with 1%Q; lra.
Qed.
Lemma nearest_int (z : Z) : nearest (inject_Z z) = z.
Proof.
  unfold nearest. rewrite Qfloor_Z. destruct (Qcompare_spec (inject_Z z - inject_Z z) (1 # 2)) as [Hc|Hc|Hc]; [lra|done|lra].
Qed.

(** ** rounding has a relative error of at most 2^-24 *)
Definition u : Q := 1 # 16777216.
Lemma fl_0 (q : Q) : (q <= 0)%Q -> fl q = 0%Q.
Proof. intros Hq. unfold fl. by rewrite (proj2 (Qle_bool_iff _ _) Hq). Qed.
Lemma fl_pos_eq (q : Q) : (0 < q)%Q -> fl q = (inject_Z (nearest (q / Qpower 2 (exponent q - 23))) * Qpower 2 (exponent q - 23))%Q.
Proof.
  intros Hq. unfold fl. destruct (Qle_bool q 0) eqn:E; [|done]. apply Qle_bool_iff in E. exfalso. lra.
Qed.
Lemma fl_err (q : Q) : (0 <= q)%Q -> (q * (1 - u) <= fl q <= q * (1 + u))%Q.
Proof.
  intros Hq. destruct (Qle_lt_or_eq _ _ Hq) as [Hp|E]; [|rewrite fl_0 by lra; rewrite <- E; unfold u; lra].
  rewrite fl_pos_eq by done. destruct (exponent_spec q Hp) as [E1 _]. set (w := Qpower 2 (exponent q - 23)).
  assert (Hw : (0 < w)%Q) by apply pow2_pos.
  assert (Hqw : (w * (8388608 # 1) <= q)%Q).
  { eapply Qle_trans; [|exact E1]. replace (exponent q) with (exponent q - 23 + 23)%Z at 1 by lia. rewrite pow2_add. apply Qle_refl. }
  pose proof (nearest_err (q / w)) as [N1 N2]. set (m := inject_Z (nearest (q / w))) in *.
  assert (Hdiv : (q / w * w == q)%Q) by (field; lra).
  apply (Qmult_le_compat_r _ _ w) in N1; [|lra]. apply (Qmult_le_compat_r _ _ w) in N2; [|lra].
  assert (X1 : ((q / w - (1 # 2)) * w == q - (1 # 2) * w)%Q) by (rewrite <- Hdiv at 2; ring). rewrite X1 in N1.
  assert (X2 : ((q / w + (1 # 2)) * w == q + (1 # 2) * w)%Q) by (rewrite <- Hdiv at 2; ring). rewrite X2 in N2.
  unfold u. lra.
Qed.
Lemma fl_proper (q q' : Q) : (q == q')%Q -> (fl q == fl q')%Q.
Proof.
  intros E. destruct (Qlt_le_dec 0 q) as [Hp|Hn].
  - rewrite !fl_pos_eq by (by rewrite <- ?E). rewrite <- (exponent_proper q q' Hp E). erewrite (nearest_proper (q / _) (q' / _)); [apply Qeq_refl|]. apply Qmult_comp; [exact E|apply Qeq_refl].
  - rewrite !fl_0 by (by rewrite <- ?E). apply Qeq_refl.
Qed.
#[global] Instance fl_Proper : Proper (Qeq ==> Qeq) fl.
Proof. intros q q' E. by apply fl_proper. Qed.
(** integers up to 2^24 are floats *)
Lemma fl_int (z : Z) : (0 <= z <= 2 ^ 24)%Z -> (fl (inject_Z z) == inject_Z z)%Q.
Proof.
  intros Hz. destruct (decide (z = 0)%Z) as [->|Hnz]; [by rewrite fl_0|].
  assert (Hp : (0 < inject_Z z)%Q) by (rewrite <- (Zlt_Qlt 0); lia).
  rewrite fl_pos_eq by done. destruct (exponent_spec _ Hp) as [E1 E2]. set (e := exponent (inject_Z z)) in *.
  assert (Hint : exists k, (inject_Z z / Qpower 2 (e - 23) == inject_Z k)%Q).
  { destruct (decide (e <= 23)%Z) as [He|He].
    - exists (z * 2 ^ (23 - e))%Z. rewrite inject_Z_mult, <- pow2_inject by lia.
      assert (Hm : (Qpower 2 (23 - e) * Qpower 2 (e - 23) == 1)%Q) by (rewrite <- pow2_add; by replace (23 - e + (e - 23))%Z with 0%Z by lia).
      pose proof (pow2_pos (e - 23)). apply (Qmult_inj_r _ _ (Qpower 2 (e - 23))); [lra|]. rewrite <- Qmult_assoc, Hm. field. lra.
    - assert (He2 : e = 24%Z).
      { assert (e < 25)%Z; [|lia]. apply Z.nle_gt. intros Hle. apply pow2_mono in Hle. rewrite (pow2_inject 25) in Hle by lia.
        pose proof (Qle_trans _ _ _ Hle E1) as Hx. rewrite <- Zle_Qle in Hx. change (2 ^ 25)%Z with (2 * 2 ^ 24)%Z in Hx. lia. }
      rewrite He2 in *. rewrite pow2_inject, <- Zle_Qle in E1 by lia. assert (z = 2 ^ 24)%Z as -> by lia. exists (2 ^ 23)%Z. by vm_compute. }
  destruct Hint as [k Hk]. rewrite (nearest_proper _ _ Hk), nearest_int, <- Hk. pose proof (pow2_pos (e - 23)). field. lra.
Qed.

(** ** the sizes that are compared, up to a relative error of 2^-21 *)
Lemma Qltb_iff (a b : Q) : Qltb a b = true <-> (a < b)%Q.
Proof.
  unfold Qltb. destruct (Qle_bool b a) eqn:E; cbn [negb].
  - apply Qle_bool_iff in E. split; [done|]. intros Hl. lra.
  - split; [|done]. intros _. apply Qnot_le_lt. intros Hle. apply Qle_bool_iff in Hle. congruence.
Qed.
Lemma Qltb_false (a b : Q) : Qltb a b = false <-> (b <= a)%Q.
Proof. unfold Qltb. rewrite <- Qle_bool_iff. by destruct (Qle_bool b a). Qed.
Lemma qn_nonneg (n : nat) : (0 <= qn n)%Q.
Proof. unfold qn. rewrite <- (Zle_Qle 0). lia. Qed.
Lemma qn_mul (a b : nat) : (qn (a * b) == qn a * qn b)%Q.
Proof. unfold qn. by rewrite Nat2Z.inj_mul, inject_Z_mult. Qed.
Lemma qn_add (a b : nat) : (qn (a + b) == qn a + qn b)%Q.
Proof. unfold qn. by rewrite Nat2Z.inj_add, inject_Z_plus. Qed.
Lemma qn_le (a b : nat) : a <= b -> (qn a <= qn b)%Q.
Proof. intros Hab. unfold qn. rewrite <- Zle_Qle. lia. Qed.
Lemma qn_lt (a b : nat) : a < b <-> (qn a < qn b)%Q.
Proof. unfold qn. rewrite <- Zlt_Qlt. lia. Qed.
Lemma fl_nonneg (q : Q) : (0 <= q)%Q -> (0 <= fl q)%Q.
Proof. intros Hq. destruct (fl_err q Hq) as [H1 _]. unfold u in H1. lra. Qed.
Lemma fl_qn (n : nat) : (N.of_nat n <= 2 ^ 24)%N -> (fl (qn n) == qn n)%Q.
Proof. intros Hn. apply fl_int. lia. Qed.
Definition close (x y : Q) : Prop := (y * (1 - (1 # 2097152)) <= x <= y * (1 + (1 # 2097152)))%Q.

Section sizes.
  Context (t i s : nat).
  Lemma mul_between (x y lo hi z : Q) : (0 <= z)%Q -> (y * lo <= x <= y * hi)%Q -> (y * z * lo <= x * z <= y * z * hi)%Q.
  Proof.
    intros Hz [H1 H2]. apply (Qmult_le_compat_r _ _ z) in H1; [|done]. apply (Qmult_le_compat_r _ _ z) in H2; [|done].
    split; [eapply Qle_trans; [|exact H1]|eapply Qle_trans; [exact H2|]]; apply Qle_lteq; right; ring.
  Qed.
  Lemma size_coo_close (n : nat) : close (size_coo t s n) (qn ((2 * s + t) * n)).
  Proof.
    unfold close, size_coo. pose proof (qn_nonneg n) as Hn. pose proof (qn_nonneg (2 * s + t)) as Hk. pose proof (fl_err _ Hn) as E1.
    pose proof (fl_nonneg _ Hn) as F1. apply (mul_between _ _ _ _ _ Hk) in E1. pose proof (fl_err _ (Qmult_le_0_compat _ _ F1 Hk)) as E2.
    pose proof (Qmult_le_0_compat _ _ Hn Hk) as Hp.
    rewrite Nat.mul_comm, qn_mul. set (a := fl (fl (qn n) * qn (2 * s + t))) in *. set (c := (fl (qn n) * qn (2 * s + t))%Q) in *. set (d := (qn n * qn (2 * s + t))%Q) in *. unfold u in *. lra.
  Qed.
  Lemma size_csr_close (r n : nat) : close (size_csr t i s r n) (qn (i * r + (s + t) * n)).
  Proof.
    unfold close, size_csr. pose proof (qn_nonneg r) as Hr. pose proof (qn_nonneg i) as Hi. pose proof (fl_err _ Hr) as E1.
    pose proof (fl_nonneg _ Hr) as F1. apply (mul_between _ _ _ _ _ Hi) in E1. pose proof (fl_err _ (Qmult_le_0_compat _ _ F1 Hi)) as E2.
    pose proof (Qmult_le_0_compat _ _ Hr Hi) as Hp. pose proof (fl_nonneg _ (Qmult_le_0_compat _ _ F1 Hi)) as F2.
    pose proof (qn_nonneg (n * (s + t))) as Hq. pose proof (fl_err _ Hq) as E3. pose proof (fl_nonneg _ Hq) as F3.
    rewrite qn_add, (Nat.mul_comm i r), qn_mul, (Nat.mul_comm (s + t) n).
    set (b := fl (qn (n * (s + t)))) in *. set (bb := qn (n * (s + t))) in *.
    set (a := fl (fl (qn r) * qn i)) in *. set (c := (fl (qn r) * qn i)%Q) in *. set (d := (qn r * qn i)%Q) in *.
    assert (Hab : (0 <= a + b)%Q) by lra. pose proof (fl_err _ Hab) as E4. set (o := fl (a + b)) in *. unfold u in *. lra.
  Qed.
  Lemma size_dense_close (r c : nat) : close (size_dense t r c) (qn (r * c * t)).
  Proof.
    unfold close, size_dense. pose proof (qn_nonneg r) as Hr. pose proof (qn_nonneg c) as Hc. pose proof (qn_nonneg t) as Ht.
    pose proof (fl_err _ Hr) as E1. pose proof (fl_err _ Hc) as E2. pose proof (fl_nonneg _ Hr) as F1. pose proof (fl_nonneg _ Hc) as F2.
    apply (mul_between _ _ _ _ _ F2) in E1. apply (mul_between _ _ _ _ _ Hr) in E2.
    pose proof (Qmult_le_0_compat _ _ F1 F2) as F3. pose proof (fl_err _ F3) as E3. pose proof (fl_nonneg _ F3) as F4.
    assert (X : (fl (qn c) * qn r == qn r * fl (qn c))%Q) by ring. rewrite X in E2. assert (Y : (qn c * qn r == qn r * qn c)%Q) by ring. rewrite Y in E2.
    set (a := (fl (qn r) * fl (qn c))%Q) in *. set (a' := (qn r * fl (qn c))%Q) in *. set (d := (qn r * qn c)%Q) in *.
    assert (Hd : (0 <= d)%Q) by (by apply Qmult_le_0_compat).
    assert (E4 : (d * (1 - (1 # 4194304)) <= fl a <= d * (1 + (1 # 4194304)))%Q) by (unfold u in *; lra).
    apply (mul_between _ _ _ _ _ Ht) in E4. pose proof (fl_err _ (Qmult_le_0_compat _ _ F4 Ht)) as E5.
    rewrite !qn_mul. fold d. pose proof (Qmult_le_0_compat _ _ Hd Ht) as Hdt.
    set (o := fl (fl a * qn t)) in *. set (o1 := (fl a * qn t)%Q) in *. set (o2 := (d * qn t)%Q) in *. unfold u in *. lra.
  Qed.
  (** up to 2^24 the sizes are exact *)
  Definition exact (n : nat) : Prop := (N.of_nat n <= 2 ^ 24)%N.
  Lemma fl_mul_exact (a b : nat) : exact a -> exact (a * b) -> (fl (fl (qn a) * qn b) == qn (a * b))%Q.
  Proof. intros Ha Hab. rewrite (fl_qn a Ha), <- qn_mul. by apply fl_qn. Qed.
  Lemma size_coo_exact (n : nat) : exact n -> exact ((2 * s + t) * n) -> (size_coo t s n == qn ((2 * s + t) * n))%Q.
  Proof. intros H1 H2. unfold size_coo. rewrite (Nat.mul_comm (2 * s + t) n) in *. by apply fl_mul_exact. Qed.
  Lemma size_csr_exact (r n : nat) : exact r -> exact (i * r + (s + t) * n) -> (size_csr t i s r n == qn (i * r + (s + t) * n))%Q.
  Proof.
    intros H1 H2. unfold size_csr. rewrite fl_mul_exact; [|done|unfold exact in *; lia]. rewrite fl_qn by (unfold exact in *; lia).
    rewrite <- qn_add, (Nat.mul_comm r i), (Nat.mul_comm n (s + t)). by apply fl_qn.
  Qed.
  Lemma size_dense_exact (r c : nat) : exact r -> exact c -> exact (r * c) -> exact (r * c * t) -> (size_dense t r c == qn (r * c * t))%Q.
  Proof.
    intros H1 H2 H3 H4. unfold size_dense. rewrite (fl_qn c H2). rewrite (fl_mul_exact r c H1 H3). rewrite <- qn_mul. by apply fl_qn.
  Qed.
End sizes.
