(** Rounding.v: value types that round (floating point), and what SpMV computes with them.

    [Scalar] (Base.v) assumes no law of the value type.  Here it is a type of rounded numbers:
    [den v] is the rational number a finite v denotes, and an operation on finite operands
    whose exact result is at most M in magnitude yields a finite number near the exact result.
    IEEE binary32 has u = 2^-24, eta = 2^-150, M = 2^128 - 2^104 (Properties_Rounding.v). *)
From Verif Require Export BlocksProof.
From Coq Require Import QArith Qabs Qpower Lqa.
Local Open Scope nat_scope.

Record rounds_within {T : Type} `{Scalar T} (den : T -> Q) (finite : T -> Prop) (u eta M : Q) : Prop := {
  rw_u : (0 <= u)%Q;
  rw_eta : (0 <= eta)%Q;
  rw_zero : finite s0 /\ (den s0 == 0)%Q;
  rw_add : forall a b, finite a -> finite b -> (Qabs (den a + den b) <= M)%Q ->
    finite (sadd a b) /\ (Qabs (den (sadd a b) - (den a + den b)) <= u * Qabs (den a + den b))%Q;
  rw_mul : forall a b, finite a -> finite b -> (Qabs (den a * den b) <= M)%Q ->
    finite (smul a b) /\ (Qabs (den (smul a b) - den a * den b) <= u * Qabs (den a * den b) + eta)%Q }.

Definition qsum (l : list Q) : Q := fold_right Qplus 0%Q l.
(** the number of elements of row i *)
Definition row_size {T : Type} (E : list (elem T)) (i : nat) : nat := length (bfilter (in_row i) E).
Section spec.
  Context {T : Type} `{Scalar T} (den : T -> Q).
  Implicit Types (E : list (elem T)) (x : list T).
  (** (y + A x)[i], exactly *)
  Definition exact_row E x (i : nat) (yi : T) : Q :=
    (den yi + qsum ((fun e => den (val e) * den (at_ x (col e)))%Q <$> bfilter (in_row i) E))%Q.
  (** (|y| + |A| |x|)[i] *)
  Definition magnitude E x (i : nat) (yi : T) : Q :=
    (Qabs (den yi) + qsum ((fun e => Qabs (den (val e)) * Qabs (den (at_ x (col e))))%Q <$> bfilter (in_row i) E))%Q.
  (** v is (y + A x)[i] up to the error of n roundings and m underflows; when the bound shows that
      no operation overflows *)
  Definition within (finite : T -> Prop) (u eta M : Q) (n m : nat) E x (i : nat) (yi v : T) : Prop :=
    let growth := ((1 + u) ^ Z.of_nat n)%Q in
    (growth * (magnitude E x i yi + inject_Z (Z.of_nat m) * eta) <= M)%Q ->
    finite v /\ (Qabs (den v - exact_row E x i yi) <= (growth - 1) * magnitude E x i yi + growth * inject_Z (Z.of_nat m) * eta)%Q.
End spec.

(** ** sums *)
Lemma qsum_app l1 l2 : (qsum (l1 ++ l2) == qsum l1 + qsum l2)%Q.
Proof. induction l1 as [|a l1 IH]; [change (qsum []) with 0%Q; cbn [app]; lra|]. cbn [app qsum fold_right] in *. fold (qsum (l1 ++ l2)) (qsum l1). lra. Qed.
Lemma qsum_perm l1 l2 : l1 ≡ₚ l2 -> (qsum l1 == qsum l2)%Q.
Proof.
  induction 1 as [|a l1 l2 _ IH|a b l|l1 l2 l3 _ IH1 _ IH2]; [done| | |lra].
  - change (a + qsum l1 == a + qsum l2)%Q. lra.
  - change (b + (a + qsum l) == a + (b + qsum l))%Q. lra.
Qed.
Lemma qsum_nonneg l : Forall (fun q => 0 <= q)%Q l -> (0 <= qsum l)%Q.
Proof. induction 1 as [|a l Ha _ IH]; [done|]. change (0 <= a + qsum l)%Q. lra. Qed.
Lemma exact_row_perm {T : Type} `{Scalar T} (den : T -> Q) E E' x i yi : E ≡ₚ E' -> (exact_row den E x i yi == exact_row den E' x i yi)%Q.
Proof. intros HE. unfold exact_row. rewrite (qsum_perm (_ <$> bfilter (in_row i) E) ((fun e => den (val e) * den (at_ x (col e)))%Q <$> bfilter (in_row i) E')); [done|]. by rewrite (bfilter_perm _ _ _ HE). Qed.
Lemma magnitude_perm {T : Type} `{Scalar T} (den : T -> Q) E E' x i yi : E ≡ₚ E' -> (magnitude den E x i yi == magnitude den E' x i yi)%Q.
Proof. intros HE. unfold magnitude. rewrite (qsum_perm (_ <$> bfilter (in_row i) E) ((fun e => Qabs (den (val e)) * Qabs (den (at_ x (col e))))%Q <$> bfilter (in_row i) E')); [done|]. by rewrite (bfilter_perm _ _ _ HE). Qed.

Definition qn_ (n : nat) : Q := inject_Z (Z.of_nat n).
Lemma qn__add a b : (qn_ (a + b) == qn_ a + qn_ b)%Q.
Proof. unfold qn_. rewrite Nat2Z.inj_add, inject_Z_plus. done. Qed.
Lemma qn__nonneg a : (0 <= qn_ a)%Q.
Proof. unfold qn_. change 0%Q with (inject_Z 0). rewrite <- Zle_Qle. lia. Qed.
Lemma qn__mono a b : a <= b -> (qn_ a <= qn_ b)%Q.
Proof. intros. unfold qn_. rewrite <- Zle_Qle. lia. Qed.

Section rounding.
  Context {T : Type} `{Scalar T} (den : T -> Q) (finite : T -> Prop) (u eta M : Q) (HR : rounds_within den finite u eta M).
  Implicit Types (E : list (elem T)) (x : list T).
  Definition amp (n : nat) : Q := ((1 + u) ^ Z.of_nat n)%Q.
  Lemma amp_0 : (amp 0 == 1)%Q.
  Proof. done. Qed.
  Lemma amp_S n : (amp (S n) == (1 + u) * amp n)%Q.
  Proof.
    unfold amp. rewrite Nat2Z.inj_succ. unfold Z.succ. rewrite Qpower_plus; [change ((1 + u) ^ 1)%Q with (1 + u)%Q; lra|].
    pose proof (rw_u _ _ _ _ _ HR). lra.
  Qed.
  Lemma amp_1 n : (1 <= amp n)%Q.
  Proof. pose proof (rw_u _ _ _ _ _ HR). induction n as [|n IH]; [rewrite amp_0; lra|]. rewrite amp_S. nra. Qed.
  Lemma amp_mono n m : n <= m -> (amp n <= amp m)%Q.
  Proof. pose proof (rw_u _ _ _ _ _ HR). induction 1 as [|m _ IH]; [lra|]. rewrite amp_S. pose proof (amp_1 m). nra. Qed.

  (** the magnitude bound: n roundings, m underflows on a sum of size s *)
  Definition bound (n m : nat) (s : Q) : Q := (amp n * (s + qn_ m * eta))%Q.
  Lemma bound_mono n m s n' m' s' : (0 <= s)%Q -> n <= n' -> m <= m' -> (s <= s')%Q -> (bound n m s <= bound n' m' s')%Q.
  Proof.
    intros Hs Hn Hm Hss. unfold bound. pose proof (amp_mono n n' Hn). pose proof (amp_1 n). pose proof (rw_eta _ _ _ _ _ HR).
    pose proof (qn__mono m m' Hm). pose proof (qn__nonneg m).
    assert (0 <= qn_ m * eta)%Q by nra. assert (qn_ m * eta <= qn_ m' * eta)%Q by nra.
    generalize dependent (qn_ m * eta)%Q. generalize dependent (qn_ m' * eta)%Q. intros. nra.
  Qed.
  Lemma bound_gap n m s : (0 <= s)%Q -> (s <= bound n m s)%Q.
  Proof.
    intros Hs. unfold bound. pose proof (amp_1 n). pose proof (rw_eta _ _ _ _ _ HR). pose proof (qn__nonneg m).
    assert (0 <= qn_ m * eta)%Q by nra. generalize dependent (qn_ m * eta)%Q. intros. nra.
  Qed.
  (** v is e up to n roundings and m underflows, where |e| is at most s *)
  Definition approx (n m : nat) (s : Q) (v : T) (e : Q) : Prop :=
    finite v /\ (Qabs e <= s)%Q /\ (Qabs (den v - e) <= bound n m s - s)%Q.
  Lemma approx_finite v : finite v -> approx 1 0 (Qabs (den v)) v (den v).
  Proof.
    intros Hv. split; [done|]. split; [apply Qle_refl|].
    assert (Hz : (Qabs (den v - den v) == 0)%Q) by (rewrite (Qabs_wd (den v - den v) 0)%Q; [done|lra]). rewrite Hz.
    pose proof (bound_gap 1 0 (Qabs (den v)) (Qabs_nonneg _)). lra.
  Qed.
  Lemma approx_zero : approx 1 0 0 s0 0.
  Proof.
    destruct (rw_zero _ _ _ _ _ HR) as [Hz1 Hz2]. split; [done|]. split; [done|].
    rewrite (Qabs_wd (den s0 - 0) 0)%Q by (rewrite Hz2; lra). pose proof (bound_gap 1 0 0 (Qle_refl _)). change (Qabs 0) with 0%Q. lra.
  Qed.
  Lemma approx_wd n m s v e s' e' : (s == s')%Q -> (e == e')%Q -> approx n m s v e -> approx n m s' v e'.
  Proof.
    intros Hs He (A1 & A2 & A3). split; [done|]. rewrite (Qabs_wd e e' He) in A2. split; [lra|].
    rewrite (Qabs_wd (den v - e) (den v - e')) in A3 by lra.
    assert (bound n m s == bound n m s')%Q by (unfold bound; rewrite Hs; done). lra.
  Qed.
  Lemma approx_mono n m s v e n' m' : approx n m s v e -> n <= n' -> m <= m' -> approx n' m' s v e.
  Proof.
    intros (A1 & A2 & A3) Hn Hm. split; [done|]. split; [done|].
    assert (Hs : (0 <= s)%Q) by (pose proof (Qabs_nonneg e); lra).
    pose proof (bound_mono n m s n' m' s Hs Hn Hm (Qle_refl _)). lra.
  Qed.
  Lemma approx_size n m s v e : approx n m s v e -> (Qabs (den v) <= bound n m s)%Q.
  Proof.
    intros (_ & A2 & A3). pose proof (Qabs_triangle (den v - e) e) as Ht. rewrite (Qabs_wd (den v - e + e) (den v)) in Ht by lra. lra.
  Qed.
  Lemma approx_add n m s v e n' m' s' v' e' N : approx n m s v e -> approx n' m' s' v' e' -> n <= N -> n' <= N ->
    (bound N (m + m') (s + s') <= M)%Q -> approx (S N) (m + m') (s + s') (sadd v v') (e + e').
  Proof.
    intros A A' Hn Hn' HM. pose proof (approx_mono _ _ _ _ _ N m A Hn (le_n _)) as (B1 & B2 & B3).
    pose proof (approx_mono _ _ _ _ _ N m' A' Hn' (le_n _)) as (B1' & B2' & B3'). clear A A'.
    assert (Hb : (bound N (m + m') (s + s') == bound N m s + bound N m' s')%Q) by (unfold bound; rewrite qn__add; lra).
    assert (Hd : (Qabs (den v + den v' - (e + e')) <= bound N (m + m') (s + s') - (s + s'))%Q).
    { pose proof (Qabs_triangle (den v - e) (den v' - e')) as Ht. rewrite (Qabs_wd (den v - e + (den v' - e')) (den v + den v' - (e + e'))) in Ht by lra. lra. }
    assert (He : (Qabs (e + e') <= s + s')%Q) by (pose proof (Qabs_triangle e e'); lra).
    assert (Hs : (Qabs (den v + den v') <= bound N (m + m') (s + s'))%Q).
    { pose proof (Qabs_triangle (den v + den v' - (e + e')) (e + e')) as Ht. rewrite (Qabs_wd (den v + den v' - (e + e') + (e + e')) (den v + den v')) in Ht by lra. lra. }
    destruct (rw_add _ _ _ _ _ HR v v' B1 B1') as [R1 R2]; [lra|]. split; [done|]. split; [done|].
    pose proof (Qabs_triangle (den (sadd v v') - (den v + den v')) (den v + den v' - (e + e'))) as Ht.
    rewrite (Qabs_wd (den (sadd v v') - (den v + den v') + (den v + den v' - (e + e'))) (den (sadd v v') - (e + e'))) in Ht by lra.
    assert (Hn2 : (bound (S N) (m + m') (s + s') == (1 + u) * bound N (m + m') (s + s'))%Q) by (unfold bound; rewrite amp_S; lra).
    pose proof (rw_u _ _ _ _ _ HR). generalize dependent (bound N (m + m') (s + s')). intros W. intros.
    assert (u * Qabs (den v + den v') <= u * W)%Q by (rewrite !(Qmult_comm u); apply Qmult_le_compat_r; lra).
    lra.
  Qed.
  Lemma approx_mul (a z : T) : finite a -> finite z -> (bound 1 1 (Qabs (den a) * Qabs (den z)) <= M)%Q ->
    approx 1 1 (Qabs (den a) * Qabs (den z)) (smul a z) (den a * den z).
  Proof.
    intros Ha Hx HM. set (s := (Qabs (den a) * Qabs (den z))%Q) in *.
    assert (Hs : (Qabs (den a * den z) == s)%Q) by (apply Qabs_Qmult).
    assert (Hs0 : (0 <= s)%Q) by (pose proof (Qabs_nonneg (den a * den z)); lra).
    pose proof (bound_gap 1 1 s Hs0).
    destruct (rw_mul _ _ _ _ _ HR a z Ha Hx) as [R1 R2]; [lra|]. split; [done|]. split; [lra|].
    assert (Hb : (bound 1 1 s == (1 + u) * (s + eta))%Q). { unfold bound. rewrite amp_S, amp_0. change (qn_ 1) with 1%Q. lra. }
    rewrite Hs in R2. pose proof (rw_u _ _ _ _ _ HR). pose proof (rw_eta _ _ _ _ _ HR). assert (0 <= u * eta)%Q by nra. lra.
  Qed.
  (** acc + a1*x1 + a2*x2 + ... *)
  Definition products (P : list (T * T)) : Q := qsum ((fun p => den p.1 * den p.2)%Q <$> P).
  Definition sizes (P : list (T * T)) : Q := qsum ((fun p => Qabs (den p.1) * Qabs (den p.2))%Q <$> P).
  Definition accumulate (P : list (T * T)) (acc : T) : T := fold_left (fun acc p => sadd acc (smul p.1 p.2)) P acc.
  Lemma sizes_nonneg P : (0 <= sizes P)%Q.
  Proof.
    apply qsum_nonneg. apply Forall_fmap, Forall_forall. intros p _. unfold compose.
    apply Qmult_le_0_compat; apply Qabs_nonneg.
  Qed.
  Lemma sizes_cons p P : (sizes (p :: P) == Qabs (den p.1) * Qabs (den p.2) + sizes P)%Q.
  Proof. done. Qed.
  Lemma products_cons p P : (products (p :: P) == den p.1 * den p.2 + products P)%Q.
  Proof. done. Qed.
  Lemma sizes_app P P' : (sizes (P ++ P') == sizes P + sizes P')%Q.
  Proof. unfold sizes. rewrite fmap_app. apply qsum_app. Qed.
  Lemma products_app P P' : (products (P ++ P') == products P + products P')%Q.
  Proof. unfold products. rewrite fmap_app. apply qsum_app. Qed.
  Lemma approx_accumulate P n m s v e : 1 <= n -> Forall (fun p => finite p.1 /\ finite p.2) P -> approx n m s v e ->
    (bound (n + length P) (m + length P) (s + sizes P) <= M)%Q ->
    approx (n + length P) (m + length P) (s + sizes P) (accumulate P v) (e + products P).
  Proof.
    intros Hn HP. revert n m s v e Hn. induction HP as [|p P [Hp1 Hp2] HP IH]; intros n m s v e Hn A HM.
    - rewrite !Nat.add_0_r. eapply approx_wd; [| |exact A]; change (sizes []) with 0%Q; change (products []) with 0%Q; lra.
    - assert (Hs : (0 <= s)%Q) by (destruct A as (_ & A2 & _); pose proof (Qabs_nonneg e); lra).
      assert (Hpp : (0 <= Qabs (den p.1) * Qabs (den p.2))%Q) by (apply Qmult_le_0_compat; apply Qabs_nonneg).
      pose proof (sizes_nonneg P) as HsP. change (sizes (p :: P)) with (Qabs (den p.1) * Qabs (den p.2) + sizes P)%Q in HM. cbn [length] in *.
      assert (A1 : approx 1 1 (Qabs (den p.1) * Qabs (den p.2)) (smul p.1 p.2) (den p.1 * den p.2)).
      { apply approx_mul; [done|done|]. eapply Qle_trans; [|exact HM]. apply bound_mono; [done|lia|lia|lra]. }
      assert (A2 : approx (S n) (m + 1) (s + Qabs (den p.1) * Qabs (den p.2)) (sadd v (smul p.1 p.2)) (e + den p.1 * den p.2)).
      { apply (approx_add n m s v e 1 1 _ _ _ n A A1); [done|done|]. eapply Qle_trans; [|exact HM]. apply bound_mono; [lra|lia|lia|lra]. }
      pose proof (IH (S n) (m + 1) _ _ _ ltac:(lia) A2) as A3.
      replace (n + S (length P)) with (S n + length P) by lia. replace (m + S (length P)) with (m + 1 + length P) by lia.
      cbn [accumulate fold_left]. change (fold_left (fun acc p0 => sadd acc (smul p0.1 p0.2)) P ?a) with (accumulate P a).
      eapply approx_wd; [| |apply A3].
      + rewrite sizes_cons. lra.
      + rewrite products_cons. lra.
      + eapply Qle_trans; [|exact HM]. apply bound_mono; [lra|lia|lia|lra].
  Qed.
  Lemma row_acc_accumulate E x i acc : row_acc E x i acc = accumulate ((fun e => (val e, at_ x (col e))) <$> bfilter (in_row i) E) acc.
  Proof. unfold row_acc, accumulate. revert acc. induction (bfilter (in_row i) E) as [|e l IH]; intros acc; [done|]. cbn [fmap list_fmap fold_left]. apply IH. Qed.
  Lemma magnitude_sizes E x i yi : magnitude den E x i yi = (Qabs (den yi) + sizes ((fun e => (val e, at_ x (col e))) <$> bfilter (in_row i) E))%Q.
  Proof. unfold magnitude, sizes. by rewrite <- list_fmap_compose. Qed.
  Lemma exact_products E x i yi : exact_row den E x i yi = (den yi + products ((fun e => (val e, at_ x (col e))) <$> bfilter (in_row i) E))%Q.
  Proof. unfold exact_row, products. by rewrite <- list_fmap_compose. Qed.
  Lemma bound_split n m s : (bound n m s - s == (amp n - 1) * s + amp n * qn_ m * eta)%Q.
  Proof. unfold bound. lra. Qed.

  (** the values of the matrix and of x are finite *)
  Definition finite_matrix E : Prop := Forall (fun e => finite (val e)) E.
  Definition finite_vector x : Prop := Forall finite x.
  Lemma finite_at x j : finite_vector x -> finite (at_ x j).
  Proof.
    intros Hx. unfold at_. destruct (decide (j < length x)) as [Hj|Hj].
    - unfold finite_vector in Hx. rewrite Forall_forall in Hx. apply Hx. apply elem_of_list_In, nth_In. done.
    - rewrite nth_overflow by lia. apply (rw_zero _ _ _ _ _ HR).
  Qed.
  (** anything approximating the row is within the bound *)
  Lemma approx_within E x i yi v n m :
    ((bound n m (magnitude den E x i yi) <= M)%Q -> approx n m (magnitude den E x i yi) v (exact_row den E x i yi)) ->
    within den finite u eta M n m E x i yi v.
  Proof.
    intros HA HM. destruct (HA HM) as (A1 & _ & A3). split; [done|]. rewrite bound_split in A3. exact A3.
  Qed.
  Lemma row_acc_within E E' x i yi : E' ≡ₚ E -> finite_matrix E -> finite_vector x -> finite yi ->
    within den finite u eta M (row_size E i + 1) (row_size E i) E x i yi (row_acc E' x i yi).
  Proof.
    intros HE HfE Hx Hy. apply approx_within. intros HM. rewrite row_acc_accumulate.
    set (P := (fun e => (val e, at_ x (col e))) <$> bfilter (in_row i) E').
    assert (Hlen : length P = row_size E i).
    { unfold P, row_size. rewrite fmap_length. apply Permutation_length. by rewrite (bfilter_perm _ _ _ HE). }
    assert (HP : Forall (fun p => finite p.1 /\ finite p.2) P).
    { unfold P. apply Forall_fmap, Forall_forall. intros e He. unfold compose. cbn [fst snd]. split; [|by apply finite_at].
      apply elem_of_bfilter in He as [He _]. unfold finite_matrix in HfE. rewrite Forall_forall in HfE. apply HfE. by rewrite <- HE. }
    assert (Hm : (magnitude den E x i yi == Qabs (den yi) + sizes P)%Q).
    { rewrite (magnitude_perm den E E') by done. by rewrite magnitude_sizes. }
    assert (He : (exact_row den E x i yi == den yi + products P)%Q).
    { rewrite (exact_row_perm den E E') by done. by rewrite exact_products. }
    eapply approx_wd; [symmetry; exact Hm|symmetry; exact He|].
    rewrite <- Hlen, Nat.add_comm. apply (approx_accumulate P 1 0); [done|done|by apply approx_finite|].
    cbn [Nat.add]. unfold bound in *. rewrite <- Hm, Hlen. by rewrite Nat.add_comm in HM.
  Qed.

  (** the chunked kernel *)
  Lemma accumulate_app P P' v : accumulate (P ++ P') v = accumulate P' (accumulate P v).
  Proof. apply fold_left_app. Qed.
  Lemma fold_accumulate (g : nat -> T -> T) (Pk : nat -> list (T * T)) l v :
    (forall k z, k ∈ l -> g k z = accumulate (Pk k) z) -> fold_left (fun z k => g k z) l v = accumulate (mjoin (Pk <$> l)) v.
  Proof.
    revert v. induction l as [|k l IH]; intros v Hg; [done|]. cbn [fold_left].
    change (mjoin (Pk <$> k :: l)) with (Pk k ++ mjoin (Pk <$> l)). rewrite accumulate_app, (Hg k) by left. apply IH. intros. apply Hg. by right.
  Qed.
  Lemma approx_chunks (g : nat -> T -> T) (Pk : nat -> list (T * T)) chunks fuel :
    (forall i, S i < length chunks -> nth i chunks 0 <= nth (S i) chunks 0) ->
    (forall k, nth 0 chunks 0 <= k < nth (length chunks - 1) chunks 0 ->
       (forall z, g k z = accumulate (Pk k) z) /\ Forall (fun p => finite p.1 /\ finite p.2) (Pk k)) ->
    forall d first last n m s v e, first < last -> last < length chunks -> last - first <= fuel -> last - first <= 2 ^ d -> 1 <= n -> approx n m s v e ->
    let P := mjoin (Pk <$> seq (nth first chunks 0) (nth last chunks 0 - nth first chunks 0)) in
    (bound (n + length P + d) (m + length P) (s + sizes P) <= M)%Q ->
    approx (n + length P + d) (m + length P) (s + sizes P) (chunk_val fuel g chunks first last v) (e + products P).
  Proof.
    intros Hm Hg.
    assert (Hmono : forall j i, i <= j -> j < length chunks -> nth i chunks 0 <= nth j chunks 0).
    { induction j as [|j IH]; intros i Hi Hj; [by replace i with 0 by lia|].
      destruct (decide (i = S j)) as [->|]; [done|]. etrans; [apply (IH i); lia|apply Hm; lia]. }
    assert (Hin : forall first last k, first < last -> last < length chunks -> k ∈ seq (nth first chunks 0) (nth last chunks 0 - nth first chunks 0) ->
       nth 0 chunks 0 <= k < nth (length chunks - 1) chunks 0).
    { intros first last k H1 H2 Hk%elem_of_seq. pose proof (Hmono first 0 ltac:(lia) ltac:(lia)). pose proof (Hmono (length chunks - 1) last ltac:(lia) ltac:(lia)). lia. }
    assert (Hfin : forall first last, first < last -> last < length chunks ->
       Forall (fun p => finite p.1 /\ finite p.2) (mjoin (Pk <$> seq (nth first chunks 0) (nth last chunks 0 - nth first chunks 0)))).
    { intros first last H1 H2. apply Forall_forall. intros p Hp. apply elem_of_list_join in Hp as (l & Hp & Hl).
      apply elem_of_list_fmap in Hl as (k & -> & Hk). destruct (Hg k (Hin _ _ _ H1 H2 Hk)) as [_ Hf]. rewrite Forall_forall in Hf. by apply Hf. }
    induction fuel as [|f IH]; intros d first last n m s v e Hfl Hl Hf Hd Hn A P HM; [lia|]. cbn [chunk_val].
    assert (Hs : (0 <= s)%Q) by (destruct A as (_ & A2 & _); pose proof (Qabs_nonneg e); lra).
    destruct (Nat.eqb_spec (last - first) 1) as [|Hne].
    - cbv zeta. rewrite (fold_accumulate g Pk).
      2:{ intros k z Hk. apply (Hg k). eapply Hin; [| |exact Hk]; lia. }
      fold P. apply (approx_mono (n + length P) (m + length P)); [|lia|lia].
      apply approx_accumulate; [done|by apply Hfin|done|]. eapply Qle_trans; [|exact HM].
      apply bound_mono; [pose proof (sizes_nonneg P); lra|lia|lia|lra].
    - cbv zeta.
      assert (Hmid : first < (first + last) / 2 < last).
      { split; [apply Nat.div_le_lower_bound; lia|apply Nat.div_lt_upper_bound; lia]. }
      assert (Hd0 : d <> 0) by (intros ->; cbn in Hd; lia). destruct d as [|d]; [done|]. clear Hd0.
      assert (Hhalf : (first + last) / 2 - first <= 2 ^ d /\ last - (first + last) / 2 <= 2 ^ d).
      { rewrite Nat.pow_succ_r' in Hd. pose proof (Nat.div_mod (first + last) 2 ltac:(lia)). pose proof (Nat.mod_upper_bound (first + last) 2 ltac:(lia)). lia. }
      generalize dependent ((first + last) / 2). intros mid Hmid [Hh1 Hh2].
      pose proof (Hmono mid first ltac:(lia) ltac:(lia)). pose proof (Hmono last mid ltac:(lia) ltac:(lia)).
      set (P1 := mjoin (Pk <$> seq (nth first chunks 0) (nth mid chunks 0 - nth first chunks 0))).
      set (P2 := mjoin (Pk <$> seq (nth mid chunks 0) (nth last chunks 0 - nth mid chunks 0))).
      assert (HP : P = P1 ++ P2).
      { unfold P, P1, P2. replace (nth last chunks 0 - nth first chunks 0) with ((nth mid chunks 0 - nth first chunks 0) + (nth last chunks 0 - nth mid chunks 0)) by lia.
        rewrite seq_app, fmap_app, join_app. replace (nth first chunks 0 + (nth mid chunks 0 - nth first chunks 0)) with (nth mid chunks 0) by lia. done. }
      assert (Hlen : length P = length P1 + length P2) by (by rewrite HP, app_length).
      assert (Hsz : (sizes P == sizes P1 + sizes P2)%Q) by (rewrite HP; apply sizes_app).
      assert (Hpr : (products P == products P1 + products P2)%Q) by (rewrite HP; apply products_app).
      pose proof (sizes_nonneg P1). pose proof (sizes_nonneg P2).
      pose proof (IH d first mid n m s v e ltac:(lia) ltac:(lia) ltac:(lia) Hh1 Hn A) as A1. cbv zeta in A1. fold P1 in A1.
      pose proof (IH d mid last 1 0 0%Q s0 0%Q ltac:(lia) ltac:(lia) ltac:(lia) Hh2 (le_n _) approx_zero) as A2. cbv zeta in A2. fold P2 in A2.
      assert (B1 : (bound (n + length P1 + d) (m + length P1) (s + sizes P1) <= M)%Q).
      { eapply Qle_trans; [|exact HM]. apply bound_mono; [lra|lia|lia|lra]. }
      assert (B2 : (bound (1 + length P2 + d) (0 + length P2) (0 + sizes P2) <= M)%Q).
      { eapply Qle_trans; [|exact HM]. apply bound_mono; [lra|lia|lia|lra]. }
      specialize (A1 B1). specialize (A2 B2).
      pose proof (approx_add _ _ _ _ _ _ _ _ _ _ (n + length P + d) A1 A2 ltac:(lia) ltac:(lia)) as A3.
      replace (n + length P + S d) with (S (n + length P + d)) by lia. rewrite Hlen. rewrite Hlen in A3.
      replace (m + (length P1 + length P2)) with (m + length P1 + (0 + length P2)) by lia.
      eapply approx_wd; [| |apply A3]; [lra|lra|].
      eapply Qle_trans; [|exact HM]. apply bound_mono; [lra|lia|lia|lra].
  Qed.
End rounding.
