(** Ieee.v: IEEE 754 binary floating point as the value type (float and double of the programs),
    with Flocq's formalisation of it.  Additions and multiplications round to nearest, ties to
    even, and are not contracted (the Makefile passes neither -ffast-math nor -march). *)
From Verif Require Import Rounding.
From Coq Require Import QArith Qabs Qpower Reals Qreals Lra.
From Flocq Require Import Core Relative Plus_error.
Require Import Flocq.IEEE754.Binary Flocq.IEEE754.Bits.
Local Open Scope R_scope.

Section ieee.
  Context (prec emax : Z) (Hprec : (0 < prec)%Z) (Hmax : (prec < emax)%Z).
  Notation float := (binary_float prec emax).
  (** the value of a not-a-number result *)
  Context (nan_add nan_mul : float -> float -> {f : float | is_nan prec emax f = true}).
  Definition ieee_add : float -> float -> float := Bplus prec emax Hprec Hmax nan_add BinarySingleNaN.mode_NE.
  Definition ieee_mul : float -> float -> float := Bmult prec emax Hprec Hmax nan_mul BinarySingleNaN.mode_NE.
  Local Instance ieee_scalar : Scalar float := { s0 := B754_zero prec emax false; sadd := ieee_add; smul := ieee_mul }.
  (** the number a finite float denotes *)
  Definition ieee_den (f : float) : Q :=
    match f with B754_finite _ _ s m e _ => inject_Z (if s then Z.neg m else Z.pos m) * 2 ^ e | _ => 0 end.
  Definition ieee_finite (f : float) : Prop := is_finite prec emax f = true.
  Definition ieee_integer (f : float) : Prop := ieee_finite f /\ exists z, (ieee_den f == inject_Z z)%Q.
  Definition unit_roundoff : Q := 2 ^ (- prec).
  Definition half_smallest : Q := 2 ^ (2 - emax - prec).
  Definition largest : Q := 2 ^ emax - 2 ^ (emax - prec).

  Lemma Q2R_pow e : Q2R (2 ^ e) = bpow radix2 e.
  Proof.
    destruct e as [|p|p]; cbn [Qpower]; [unfold Q2R; cbn; lra| |].
    - assert (forall p, Q2R (Qpower_positive 2 p) = IZR (Z.pow_pos 2 p)) as ->; [|done].
      clear. intros p. rewrite <- (Qreals.Qeq_eqR (inject_Z (Z.pow_pos 2 p))); [unfold Q2R, inject_Z; cbn; lra|].
      symmetry. change (2 ^ Z.pos p == inject_Z (2 ^ Z.pos p))%Q. by rewrite Zpower_Qpower.
    - rewrite Q2R_inv.
      2:{ intros H. assert (H1 : (2 ^ Z.pos p == inject_Z (2 ^ Z.pos p))%Q) by (by rewrite Zpower_Qpower).
          change (2 ^ Z.pos p)%Q with (Qpower_positive 2 p) in H1. rewrite H in H1. unfold Qeq in H1. cbn [Qnum Qden inject_Z] in H1.
          pose proof (Z.pow_pos_nonneg 2 (Z.pos p)). lia. }
      assert (forall p, Q2R (Qpower_positive 2 p) = IZR (Z.pow_pos 2 p)) as ->; [|done].
      clear. intros p. rewrite <- (Qreals.Qeq_eqR (inject_Z (Z.pow_pos 2 p))); [unfold Q2R, inject_Z; cbn; lra|].
      symmetry. change (2 ^ Z.pos p == inject_Z (2 ^ Z.pos p))%Q. by rewrite Zpower_Qpower.
  Qed.
  Lemma Q2R_Z z : Q2R (inject_Z z) = IZR z.
  Proof. unfold Q2R, inject_Z. cbn. lra. Qed.
  Lemma den_B2R f : Q2R (ieee_den f) = B2R prec emax f.
  Proof.
    destruct f as [s|s|s pl Hpl|s m e Hb]; try (unfold Q2R; cbn; lra).
    cbn [ieee_den B2R]. rewrite Q2R_mult, Q2R_pow, Q2R_Z. unfold F2R. cbn [Fnum Fexp]. by destruct s.
  Qed.
  Lemma Q2R_abs q : Q2R (Qabs q) = Rabs (Q2R q).
  Proof.
    apply (Qabs_case q (fun z => Q2R z = Rabs (Q2R q))); intros Hq.
    - rewrite Rabs_right; [done|]. apply Rle_ge. replace 0 with (Q2R 0) by (unfold Q2R; cbn; lra). by apply Qle_Rle.
    - rewrite Rabs_left1; [by rewrite Q2R_opp|]. replace 0 with (Q2R 0) by (unfold Q2R; cbn; lra). by apply Qle_Rle.
  Qed.
  Lemma emin_eq : SpecFloat.emin prec emax = (3 - emax - prec)%Z.
  Proof. done. Qed.
  Lemma round_below x : Rabs x <= Q2R largest ->
    Rlt_bool (Rabs (round radix2 (SpecFloat.fexp prec emax) (BinarySingleNaN.round_mode BinarySingleNaN.mode_NE) x)) (bpow radix2 emax) = true.
  Proof.
    intros Hx. apply Rlt_bool_true. unfold largest in Hx. rewrite Q2R_minus, !Q2R_pow in Hx.
    eapply Rle_lt_trans; [apply abs_round_le_generic; [apply FLT_exp_valid; exact Hprec|apply BinarySingleNaN.valid_rnd_round_mode| |exact Hx]|].
    - apply generic_format_FLT. exists (Float radix2 (2 ^ prec - 1) (emax - prec)).
      + unfold F2R. cbn [Fnum Fexp]. change (2 ^ prec)%Z with (radix2 ^ prec)%Z. rewrite minus_IZR, (IZR_Zpower radix2 prec) by lia.
        rewrite Rmult_minus_distr_r, <- bpow_plus. replace (prec + (emax - prec))%Z with emax by lia. lra.
      + cbn [Fnum]. change (radix_val radix2) with 2%Z. pose proof (Z.pow_pos_nonneg 2 prec). lia.
      + cbn [Fexp]. rewrite emin_eq. lia.
    - pose proof (bpow_gt_0 radix2 (emax - prec)). lra.
  Qed.
  Lemma format_B2R f : generic_format radix2 (FLT_exp (SpecFloat.emin prec emax) prec) (B2R prec emax f).
  Proof. apply generic_format_B2R. Qed.
  Lemma u_ro_eq : u_ro radix2 prec = Q2R unit_roundoff.
  Proof. unfold u_ro, unit_roundoff. rewrite Q2R_pow. rewrite bpow_plus. change (bpow radix2 1) with 2. lra. Qed.
  Lemma Qle_of q r : Q2R q <= Q2R r -> (q <= r)%Q.
  Proof. apply Rle_Qle. Qed.

  (** float and double round within half an ulp, and lose at most half the smallest subnormal
      to underflow *)
  Theorem ieee_rounds_within : rounds_within ieee_den ieee_finite unit_roundoff half_smallest largest.
  Proof.
    assert (Hpu : 0 < Q2R unit_roundoff) by (unfold unit_roundoff; rewrite Q2R_pow; apply bpow_gt_0).
    assert (Hpe : 0 < Q2R half_smallest) by (unfold half_smallest; rewrite Q2R_pow; apply bpow_gt_0).
    assert (Hz : Q2R 0 = 0) by (unfold Q2R; cbn; lra).
    split.
    - apply Qle_of. lra.
    - apply Qle_of. lra.
    - done.
    - intros a b Ha Hb HM. apply Qle_Rle in HM. rewrite Q2R_abs, Q2R_plus, !den_B2R in HM.
      pose proof (Bplus_correct prec emax Hprec Hmax nan_add BinarySingleNaN.mode_NE a b Ha Hb) as Hc.
      rewrite round_below in Hc by done. destruct Hc as (H1 & H2 & _). split; [exact H2|].
      apply Qle_of. rewrite Q2R_abs, Q2R_minus, Q2R_mult, Q2R_abs, Q2R_plus, !den_B2R. cbn [sadd ieee_scalar]. unfold ieee_add. rewrite H1.
      destruct (@FLT_plus_error_N_ex radix2 (SpecFloat.emin prec emax) prec Hprec (fun x => negb (Z.even x)) (B2R prec emax a) (B2R prec emax b)) as (eps & He & Hr); [apply format_B2R|apply format_B2R|].
      change (SpecFloat.fexp prec emax) with (FLT_exp (SpecFloat.emin prec emax) prec). cbn [BinarySingleNaN.round_mode].
      match goal with |- context [round ?be ?f ?r ?z - _] => replace (round be f r z) with ((B2R prec emax a + B2R prec emax b) * (1 + eps)) by (symmetry; exact Hr) end.
      replace ((B2R prec emax a + B2R prec emax b) * (1 + eps) - (B2R prec emax a + B2R prec emax b)) with (eps * (B2R prec emax a + B2R prec emax b)) by ring.
      rewrite Rabs_mult. apply Rmult_le_compat_r; [apply Rabs_pos|]. rewrite u_ro_eq in He. eapply Rle_trans; [exact He|].
      apply (Rmult_le_reg_r (1 + Q2R unit_roundoff)); [lra|]. unfold Rdiv. rewrite Rmult_assoc, Rinv_l by lra. nra.
    - intros a b Ha Hb HM. apply Qle_Rle in HM. rewrite Q2R_abs, Q2R_mult, !den_B2R in HM.
      pose proof (Bmult_correct prec emax Hprec Hmax nan_mul BinarySingleNaN.mode_NE a b) as Hc.
      rewrite round_below in Hc by done. destruct Hc as (H1 & H2 & _). unfold ieee_finite in *. rewrite Ha, Hb in H2. split; [exact H2|].
      apply Qle_of. rewrite Q2R_abs, Q2R_minus, Q2R_plus, !Q2R_mult, Q2R_abs, Q2R_mult, !den_B2R. cbn [smul ieee_scalar]. unfold ieee_mul. rewrite H1.
      destruct (error_N_FLT radix2 (SpecFloat.emin prec emax) prec Hprec (fun x => negb (Z.even x)) (B2R prec emax a * B2R prec emax b)) as (eps & eta & He1 & He2 & _ & Hr).
      change (SpecFloat.fexp prec emax) with (FLT_exp (SpecFloat.emin prec emax) prec). cbn [BinarySingleNaN.round_mode].
      match goal with |- context [round ?be ?f ?r ?z - _] => replace (round be f r z) with (B2R prec emax a * B2R prec emax b * (1 + eps) + eta) by (symmetry; exact Hr) end.
      set (p := B2R prec emax a * B2R prec emax b). replace (p * (1 + eps) + eta - p) with (eps * p + eta) by ring.
      eapply Rle_trans; [apply Rabs_triang|]. apply Rplus_le_compat.
      + rewrite Rabs_mult. apply Rmult_le_compat_r; [apply Rabs_pos|]. eapply Rle_trans; [exact He1|]. rewrite bpow_plus. change (bpow radix2 1) with 2. unfold unit_roundoff. rewrite Q2R_pow. lra.
      + eapply Rle_trans; [exact He2|]. unfold half_smallest. rewrite Q2R_pow, emin_eq. replace (3 - emax - prec)%Z with (2 - emax - prec + 1)%Z by lia.
        rewrite bpow_plus. change (bpow radix2 1) with 2. lra.
  Qed.

  (** operations on integers are exact while the results are at most 2^prec *)
  Lemma round_int z : Rabs (IZR z) <= bpow radix2 prec ->
    round radix2 (FLT_exp (SpecFloat.emin prec emax) prec) ZnearestE (IZR z) = IZR z.
  Proof.
    intros Hz. apply round_generic; [apply valid_rnd_N|]. rewrite <- abs_IZR in Hz. rewrite <- (IZR_Zpower radix2 prec) in Hz by lia. apply le_IZR in Hz.
    change (radix2 ^ prec)%Z with (2 ^ prec)%Z in Hz.
    destruct (Z.eq_dec (Z.abs z) (2 ^ prec)) as [He|Hne].
    - apply generic_format_abs_inv. rewrite <- abs_IZR, He. change (2 ^ prec)%Z with (radix2 ^ prec)%Z. rewrite (IZR_Zpower radix2 prec) by lia.
      apply generic_format_FLT_bpow; [exact Hprec|]. rewrite emin_eq. lia.
    - apply generic_format_FLT. exists (Float radix2 z 0).
      + unfold F2R. cbn [Fnum Fexp bpow]. lra.
      + cbn [Fnum]. change (radix_val radix2) with 2%Z. lia.
      + cbn [Fexp]. rewrite emin_eq. lia.
  Qed.
  Theorem ieee_integers_exact : rounds_within ieee_den ieee_integer 0 0 (2 ^ prec).
  Proof.
    assert (Hz : Q2R 0 = 0) by (unfold Q2R; cbn; lra).
    assert (Hb : bpow radix2 prec < bpow radix2 emax) by (apply bpow_lt; exact Hmax).
    assert (Hint : forall f, ieee_integer f -> exists z, B2R prec emax f = IZR z).
    { intros f [_ [z E]]. exists z. rewrite <- den_B2R, <- Q2R_Z. by apply Qeq_eqR. }
    assert (Hback : forall f z, B2R prec emax f = IZR z -> (ieee_den f == inject_Z z)%Q).
    { intros f z E. apply eqR_Qeq. by rewrite den_B2R, Q2R_Z. }
    split; [done|done| | |].
    - split; [|done]. split; [done|]. by exists 0%Z.
    - intros a b Ha Hb' HM. apply Qle_Rle in HM. rewrite Q2R_abs, Q2R_plus, !den_B2R, Q2R_pow in HM.
      destruct (Hint a Ha) as [za Ea]. destruct (Hint b Hb') as [zb Eb].
      pose proof (Bplus_correct prec emax Hprec Hmax nan_add BinarySingleNaN.mode_NE a b (proj1 Ha) (proj1 Hb')) as Hc.
      change (SpecFloat.fexp prec emax) with (FLT_exp (SpecFloat.emin prec emax) prec) in Hc. cbn [BinarySingleNaN.round_mode] in Hc.
      rewrite Ea, Eb, <- plus_IZR in HM. rewrite Ea, Eb, <- plus_IZR, round_int in Hc by done. rewrite Rlt_bool_true in Hc by lra.
      destruct Hc as (H1 & H2 & _). pose proof (Hback _ _ H1) as HH. split; [split; [exact H2|by exists (za + zb)%Z]|].
      apply Qle_of. rewrite Q2R_abs, Q2R_minus, Q2R_mult, Q2R_abs, Q2R_plus, !den_B2R. cbn [sadd ieee_scalar]. unfold ieee_add. rewrite H1, Ea, Eb, plus_IZR, Hz.
      replace (IZR za + IZR zb - (IZR za + IZR zb)) with 0 by ring. rewrite Rabs_R0. lra.
    - intros a b Ha Hb' HM. apply Qle_Rle in HM. rewrite Q2R_abs, Q2R_mult, !den_B2R, Q2R_pow in HM.
      destruct (Hint a Ha) as [za Ea]. destruct (Hint b Hb') as [zb Eb].
      pose proof (Bmult_correct prec emax Hprec Hmax nan_mul BinarySingleNaN.mode_NE a b) as Hc.
      change (SpecFloat.fexp prec emax) with (FLT_exp (SpecFloat.emin prec emax) prec) in Hc. cbn [BinarySingleNaN.round_mode] in Hc.
      rewrite Ea, Eb, <- mult_IZR in HM. rewrite Ea, Eb, <- mult_IZR, round_int in Hc by done. rewrite Rlt_bool_true in Hc by lra.
      destruct Hc as (H1 & H2 & _). pose proof (Hback _ _ H1) as HH. destruct Ha as [Fa _]. destruct Hb' as [Fb _]. unfold ieee_finite in Fa, Fb. rewrite Fa, Fb in H2.
      split; [split; [exact H2|by exists (za * zb)%Z]|].
      apply Qle_of. rewrite Q2R_abs, Q2R_minus, Q2R_plus, !Q2R_mult, Q2R_abs, Q2R_mult, !den_B2R. cbn [smul ieee_scalar]. unfold ieee_mul. rewrite H1, Ea, Eb, mult_IZR, Hz.
      replace (IZR za * IZR zb - (IZR za * IZR zb)) with 0 by ring. rewrite Rabs_R0. lra.
  Qed.
End ieee.
