(** Properties_Ieee.v: C89, the products with IEEE float and double values.
    [accurate], [finite_data]: see Properties_Rounding.v; [ieee_*]: Ieee.v (Flocq). *)
From Verif Require Import RoundingProof Ieee Properties_Utils Properties_Simple Properties_Blocked Properties_Reuse Properties_Cgbr Properties_Rounding.
From Coq Require Import QArith Qabs Qpower Lqa.
Require Import Flocq.IEEE754.Binary Flocq.IEEE754.Bits.
Local Open Scope nat_scope.

(** float and double, with the additions and multiplications of Flocq's binary32 and binary64 *)
Definition float_t : Type := binary32.
Definition double_t : Type := binary64.
Definition float_value : Scalar float_t := ieee_scalar 24 128 eq_refl eq_refl binop_nan_pl32 binop_nan_pl32.
Definition double_value : Scalar double_t := ieee_scalar 53 1024 eq_refl eq_refl binop_nan_pl64 binop_nan_pl64.
(** the number a finite one denotes *)
Definition float_q : float_t -> Q := ieee_den 24 128.
Definition double_q : double_t -> Q := ieee_den 53 1024.
Definition float_finite : float_t -> Prop := ieee_finite 24 128.
Definition double_finite : double_t -> Prop := ieee_finite 53 1024.
(** those that are integers *)
Definition float_int : float_t -> Prop := ieee_integer 24 128.
Definition double_int : double_t -> Prop := ieee_integer 53 1024.

Lemma rounds_within_wd {T : Type} (SC : Scalar T) den finite u eta M u' eta' M' : (u == u')%Q -> (eta == eta')%Q -> (M == M')%Q ->
  rounds_within (T := T) den finite u eta M -> rounds_within (T := T) den finite u' eta' M'.
Proof.
  intros H1 H2 H3 [R1 R2 R3 R4 R5]. split; [lra|lra|done| |].
  - intros a b Ha Hb HM. destruct (R4 a b Ha Hb) as [A1 A2]; [lra|]. split; [done|]. rewrite H1 in A2. done.
  - intros a b Ha Hb HM. destruct (R5 a b Ha Hb) as [A1 A2]; [lra|]. split; [done|]. rewrite H1, H2 in A2. done.
Qed.
Theorem C89_float_rounding : rounds_within (H := float_value) float_q float_finite (1 # 2 ^ 24) (2 ^ (-150)) (2 ^ 128 - 2 ^ 104).
Proof. eapply rounds_within_wd; [| | |apply ieee_rounds_within]; reflexivity. Qed.
Theorem C89_double_rounding : rounds_within (H := double_value) double_q double_finite (1 # 2 ^ 53) (2 ^ (-1075)) (2 ^ 1024 - 2 ^ 971).
Proof. eapply rounds_within_wd; [| | |apply ieee_rounds_within]; reflexivity. Qed.
(** integers are added and multiplied exactly up to 2^24 and 2^53 *)
Theorem C89_float_integers : rounds_within (H := float_value) float_q float_int 0 0 (2 ^ 24).
Proof. apply ieee_integers_exact. Qed.
Theorem C89_double_integers : rounds_within (H := double_value) double_q double_int 0 0 (2 ^ 53).
Proof. apply ieee_integers_exact. Qed.

(** A row of a float product computed with n <= 2^22 roundings (for a row of k elements n = k + 1,
    and the depth of the chunks more for the chunked kernels, see C88): off by at most
    n * 2^-23 of |y| + |A| |x|, apart from underflow. *)
Theorem C89_float_row (n m : nat -> nat) (E : list (elem float_t)) (x y y' : list float_t) i yi :
  accurate (H := float_value) float_q float_finite (1 # 2 ^ 24) (2 ^ (-150)) (2 ^ 128 - 2 ^ 104) n m E x y y' ->
  (N.of_nat (n i) <= 2 ^ 22)%N -> m i <= n i -> y !! i = Some yi -> (magnitude (H := float_value) float_q E x i yi <= 2 ^ 126)%Q ->
  exists v, y' !! i = Some v /\ float_finite v /\
    (Qabs (float_q v - exact_row (H := float_value) float_q E x i yi) <=
       inject_Z (Z.of_nat (n i)) * (1 # 2 ^ 23) * magnitude (H := float_value) float_q E x i yi + inject_Z (Z.of_nat (m i)) * 2 ^ (-149))%Q.
Proof.
  intros [_ HA] Hn Hm Hi Hmag. destruct (HA i yi Hi) as (v & Hv & W). exists v. split; [done|].
  set (mag := magnitude float_q E x i yi) in *.
  assert (Hmag0 : (0 <= mag)%Q).
  { unfold mag. rewrite magnitude_sizes. match goal with |- (0 <= _ + sizes _ ?P)%Q => pose proof (sizes_nonneg float_q P) as Hs end.
    pose proof (Qabs_nonneg (float_q yi)). lra. }
  set (qn := inject_Z (Z.of_nat (n i))) in *. set (qm := inject_Z (Z.of_nat (m i))) in *.
  assert (Hq0 : (0 <= qm /\ qm <= qn /\ qn <= 4194304)%Q).
  { unfold qm, qn. split; [change 0%Q with (inject_Z 0); rewrite <- Zle_Qle; lia|]. split; [rewrite <- Zle_Qle; lia|].
    change 4194304%Q with (inject_Z 4194304). rewrite <- Zle_Qle. lia. }
  pose proof (C88_growth (1 # 2 ^ 24) (n i)) as Hg. fold qn in Hg.
  set (p := ((1 + (1 # 2 ^ 24)) ^ Z.of_nat (n i))%Q) in *.
  assert (Hp : (p - 1 <= qn * (1 # 2 ^ 23) * (3 # 4))%Q).
  { eapply Qle_trans; [apply Hg; [done|]|].
    - change (1 # 2 ^ 24)%Q with (1 # 16777216)%Q. lra.
    - apply Qle_shift_div_r; [change (1 # 2 ^ 24)%Q with (1 # 16777216)%Q; lra|].
      change (1 # 2 ^ 24)%Q with (1 # 16777216)%Q. change (1 # 2 ^ 23)%Q with (1 # 8388608)%Q. nra. }
  assert (Hp2 : (p <= 3 # 2)%Q) by (change (1 # 2 ^ 23)%Q with (1 # 8388608)%Q in Hp; lra).
  assert (Hp1 : (1 <= p)%Q).
  { apply (amp_1 (H := float_value) _ _ _ _ _ C89_float_rounding). }
  set (e := (2 ^ (-150))%Q) in *. assert (He : (2 ^ (-149) == 2 * e)%Q) by reflexivity. assert (He0 : (0 < e)%Q) by reflexivity.
  assert (He1 : (4194304 * e <= 1)%Q) by (vm_compute; discriminate).
  assert (Hme : (0 <= qm * e <= 1)%Q) by (split; [nra|]; apply Qle_trans with (4194304 * e)%Q; [apply Qmult_le_compat_r; lra|done]).
  destruct W as [Hf Herr].
  - change (((1 + (1 # 2 ^ 24)) ^ Z.of_nat (n i)) * (mag + qm * e) <= 2 ^ 128 - 2 ^ 104)%Q. fold p.
    apply Qle_trans with ((3 # 2) * (2 ^ 126 + 1))%Q; [|vm_compute; discriminate].
    apply Qle_trans with (p * (2 ^ 126 + 1))%Q; [rewrite !(Qmult_comm p); apply Qmult_le_compat_r; lra|]. apply Qmult_le_compat_r; [done|]. vm_compute; discriminate.
  - split; [done|]. change (float_finite v) in Hf. eapply Qle_trans; [exact Herr|].
    change ((p - 1) * mag + p * qm * e <= qn * (1 # 2 ^ 23) * mag + qm * 2 ^ (-149))%Q.
    apply Qplus_le_compat; [apply Qmult_le_compat_r; [|done]; change (1 # 2 ^ 23)%Q with (1 # 8388608)%Q in *; lra|].
    rewrite He. nra.
Qed.
Theorem C89_float_integer_row (n m : nat -> nat) (E : list (elem float_t)) (x y y' : list float_t) i yi :
  accurate (H := float_value) float_q float_int 0 0 (2 ^ 24) n m E x y y' ->
  y !! i = Some yi -> (magnitude (H := float_value) float_q E x i yi <= 2 ^ 24)%Q ->
  exists v, y' !! i = Some v /\ float_int v /\ (float_q v == exact_row (H := float_value) float_q E x i yi)%Q.
Proof.
  intros [_ HA] Hi Hmag. destruct (HA i yi Hi) as (v & Hv & W). exists v. split; [done|].
  assert (Hp : ((1 + 0) ^ Z.of_nat (n i) == 1)%Q) by (change (1 + 0)%Q with 1%Q; apply Qpower_1).
  unfold within in W. cbv zeta in W. rewrite Hp in W. destruct W as [Hf Herr]; [lra|]. split; [done|].
  set (q := exact_row float_q E x i yi) in *.
  assert (Hz : (Qabs (float_q v - q) <= 0)%Q) by lra.
  apply Qabs_Qle_condition in Hz. lra.
Qed.
Theorem C89_double_integer_row (n m : nat -> nat) (E : list (elem double_t)) (x y y' : list double_t) i yi :
  accurate (H := double_value) double_q double_int 0 0 (2 ^ 53) n m E x y y' ->
  y !! i = Some yi -> (magnitude (H := double_value) double_q E x i yi <= 2 ^ 53)%Q ->
  exists v, y' !! i = Some v /\ double_int v /\ (double_q v == exact_row (H := double_value) double_q E x i yi)%Q.
Proof.
  intros [_ HA] Hi Hmag. destruct (HA i yi Hi) as (v & Hv & W). exists v. split; [done|].
  assert (Hp : ((1 + 0) ^ Z.of_nat (n i) == 1)%Q) by (change (1 + 0)%Q with 1%Q; apply Qpower_1).
  unfold within in W. cbv zeta in W. rewrite Hp in W. destruct W as [Hf Herr]; [lra|]. split; [done|].
  set (q := exact_row double_q E x i yi) in *.
  assert (Hz : (Qabs (double_q v - q) <= 0)%Q) by lra.
  apply Qabs_Qle_condition in Hz. lra.
Qed.

(** 1, 1 and 2^24: in this order the sum of floats is 2^24 + 2, in the opposite order 2^24.  The
    COO product adds in the order of the elements, CSR by column *)
Definition f_one : float_t := b32_of_bits 1065353216.
Definition f_big : float_t := b32_of_bits 1266679808.
Definition ex_floats : coo float_t := Coo 1 3 [Elem 0 2 f_one 0; Elem 0 1 f_one 0; Elem 0 0 f_big 0].
Lemma ex_floats_values : (float_q f_one == 1)%Q /\ (float_q f_big == 2 ^ 24)%Q.
Proof. split; vm_compute; reflexivity. Qed.
Lemma ex_floats_range : in_range (c_rows ex_floats) (c_cols ex_floats) (c_elems ex_floats).
Proof. repeat constructor; cbn; lia. Qed.
Theorem C89_formats_identical_refuted `{W : Widths} : 4 < itW -> exists (B : coo float_t) (x y y1 y2 : list float_t) b,
  in_range (c_rows B) (c_cols B) (c_elems B) /\ c_cols B <= length x /\ length y = c_rows B /\
  all_schedules (coo_spmv (H := float_value) B x b) (heap_of b y) tt (heap_of b y1) /\
  (exists A B', Coo_to_Csr B = Ok (A, B') /\ all_schedules (csr_spmv (H := float_value) A x b) (heap_of b y) tt (heap_of b y2)) /\
  (float_q <$> y1) = [float_q (b32_of_bits 1266679809)] /\ (float_q <$> y2) = [float_q f_big] /\
  ~ (float_q (b32_of_bits 1266679809) == float_q f_big)%Q.
Proof.
  intros Hw. exists ex_floats, [f_one; f_one; f_one], [b32_of_bits 0], (spmv_in_order (H := float_value) (c_elems ex_floats) [f_one; f_one; f_one] [b32_of_bits 0]),
    (spmv_by_column (H := float_value) (c_elems ex_floats) [f_one; f_one; f_one] [b32_of_bits 0]), [].
  split; [apply ex_floats_range|]. split; [done|]. split; [done|].
  split; [apply (C15_coo_spmv (H := float_value)); [apply ex_floats_range|done|done]|].
  split.
  { destruct (C19_csr_kernels_agree (H := float_value) ex_floats [f_one; f_one; f_one] [b32_of_bits 0] [] ex_floats_range) as (A & B' & HA & K & _); [cbn; lia|cbn; lia|done|done|].
    exists A, B'. split; [exact HA|exact K]. }
  split; [vm_compute; reflexivity|]. split; [vm_compute; reflexivity|]. vm_compute. discriminate.
Qed.
(** the same matrix meets the hypotheses of C89_float_row; without its first column those of
    C89_float_integer_row *)
Example C89_ex : 
  let x := [f_one; f_one; f_one] in let y := [b32_of_bits 0] in
  finite_data float_finite ex_floats x y /\ (magnitude (H := float_value) float_q (c_elems ex_floats) x 0 (b32_of_bits 0) <= 2 ^ 126)%Q /\
  (N.of_nat (row_size (c_elems ex_floats) 0 + 1) <= 2 ^ 22)%N /\
  (exact_row (H := float_value) float_q (c_elems ex_floats) x 0 (b32_of_bits 0) == 2 ^ 24 + 2)%Q /\
  (let B := Coo 1 3 [Elem 0 2 f_one 0; Elem 0 1 f_one 0] in
   finite_data float_int B x y /\ (magnitude (H := float_value) float_q (c_elems B) x 0 (b32_of_bits 0) <= 2 ^ 24)%Q).
Proof.
  assert (Hi : float_int f_one) by (split; [done|by exists 1%Z]).
  assert (H0 : float_int (b32_of_bits 0)) by (split; [done|by exists 0%Z]).
  cbv zeta. split; [split; [|split]; repeat constructor|]. split; [vm_compute; discriminate|]. split; [vm_compute; discriminate|].
  split; [vm_compute; reflexivity|]. split; [split; [|split]; repeat first [exact Hi|exact H0|constructor]|]. vm_compute. discriminate.
Qed.
