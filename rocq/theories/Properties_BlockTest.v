(** Properties_BlockTest.v: C97, the program that compares the formats of a block on files given by
    the user (src/test/block.cpp): its exit code, the lines it prints and the memory it leaves. *)
From Verif Require Import Properties_Drivers BlockTest.
From Verif Require Ledger LedgerProof Properties_Ledger.
From stdpp Require Import gmap.
Import Ledger (led, led_ret, led_bind).

(** ** Specification *)
(** the file name proper *)
Definition file_name (name base : bytes) : Prop :=
  47 ∉ base /\ (name = base \/ exists dir, name = dir ++ 47 :: base).
(** the name says "size<n>ratio<r>", as the program expects *)
Definition labelled {R} (scan_f : bytes -> option R * bytes) (name : bytes) (n : N) (r : R) : Prop :=
  exists d t rest, file_name name (str "size" ++ d ++ str "ratio" ++ t) /\ num_text n d /\ (n <= ulong_max)%N /\
    (exists c s, t = c :: s /\ is_space c = false) /\ scan_f t = (Some r, rest).
(** it says nothing *)
Definition unlabelled (name : bytes) : Prop :=
  exists base, file_name name base /\ forall s, base <> str "size" ++ s.
(** a matrix that all seven formats can hold: indices in range and below the range of the short
    type, sizes below that of the index type, also of the dense matrix *)
Definition timeable {T} `{Widths} (B : coo T) : Prop :=
  csr_able B /\ 0 < c_cols B /\ c_rows B * c_cols B < itW /\
  Forall (fun e => row e < sitW /\ col e < sitW) (c_elems B).
(** the program ends with exit code [c] after printing [out] and leaves [n] pieces of memory
    behind, whatever was there before *)
Definition ends_with {R} (p : led (Z * list (line (R := R)))) (c : Z) (out : list line) (n : nat) : Prop :=
  forall m, Properties_Ledger.valid m -> exists m' lost, p m = Ok (c, out, m') /\
    Ledger.l_live m' = lost ∪ Ledger.l_live m /\ lost ##ₘ Ledger.l_live m /\ size lost = n.

(** ** Lemmas *)
Lemma pure_bind {A B} (o : outcome A) (a : A) (f : A -> led B) : o = Ok a -> (pure o ≫= f) = f a.
Proof. intros ->. done. Qed.
Lemma basename_spec name base : file_name name base -> basename name = base.
Proof.
  intros [Hb Hn]. unfold basename.
  assert (Hf : Forall (fun c => negb (c =? 47) = true) (reverse base)).
  { apply Forall_forall. intros c Hc. rewrite elem_of_reverse in Hc. destruct (Nat.eqb_spec c 47) as [->|]; done. }
  destruct Hn as [->|(dir & ->)].
  - rewrite <- (app_nil_r (reverse base)), span_app by done. cbn [fst]. by rewrite reverse_involutive.
  - rewrite reverse_app, reverse_cons, <- app_assoc. rewrite span_app by done. cbn [fst]. by rewrite reverse_involutive.
Qed.
Lemma scan_lu_before n d s : num_text n d -> (n <= ulong_max)%N -> match s with [] => True | c :: _ => is_digit c = false end ->
  scan_lu (d ++ s) = Ok (Got n, s).
Proof.
  intros Hd Hn Hs. destruct (num_text_skip n d s Hd) as [E Hne]. unfold scan_lu. rewrite E.
  destruct (d ++ s) as [|c0 l] eqn:El; [done|]. rewrite <- El.
  destruct Hd as (Hd & Hdn & Hv). unfold scan_digits.
  destruct d as [|c d]; [done|]. cbn [app]. pose proof Hd as Hd'. unfold digits in Hd'. apply Forall_cons in Hd' as [Hc _].
  destruct (digit_not_sign c Hc) as [-> ->]. change (c :: d ++ s) with ((c :: d) ++ s). rewrite span_app; [|exact Hd|done].
  rewrite Hv. rewrite (proj2 (N.ltb_ge _ _) Hn). done.
Qed.
Lemma has_prefix_app (a b : bytes) : has_prefix a (a ++ b) = true.
Proof. unfold has_prefix, str_eqb. rewrite take_app. by rewrite decide_True. Qed.
Lemma has_prefix_false (a b : bytes) : (forall s, b <> a ++ s) -> has_prefix a b = false.
Proof.
  intros Hb. unfold has_prefix, str_eqb. rewrite decide_False; [done|]. intros E. apply (Hb (drop (length a) b)). rewrite <- E at 1. by rewrite take_drop.
Qed.
Lemma scan_label_ok {R} (scan_f : bytes -> option R * bytes) name n r v : labelled scan_f name n r ->
  scan_label scan_f (basename name) v = Ok (Some n, Some r).
Proof.
  intros (d & t & rest & Hf & Hd & Hn & (c & s & -> & Hc) & Hr). rewrite (basename_spec _ _ Hf). unfold scan_label. destruct v as [n0 r0].
  rewrite has_prefix_app. cbn [negb]. rewrite (drop_app_alt (str "size")) by done.
  rewrite (scan_lu_before n d) by done. cbn [mbind outcome_bind]. rewrite has_prefix_app. cbn [negb]. rewrite (drop_app_alt (str "ratio")) by done.
  rewrite skip_space_stop by done. by rewrite Hr.
Qed.
Lemma scan_label_none {R} (scan_f : bytes -> option R * bytes) name v : unlabelled name ->
  scan_label scan_f (basename name) v = Ok v.
Proof.
  intros (base & Hf & Hb). rewrite (basename_spec _ _ Hf). unfold scan_label. destruct v as [n0 r0]. by rewrite has_prefix_false.
Qed.

Definition aborts {A} (own : list (nat * Ledger.family)) (p : led A) : Prop := forall fr m, LedgerProof.owns own fr m -> p m = Abort.
Lemma aborts_bind_r {A S} own (p : led A) (k : A -> led S) Q :
  LedgerProof.hoare own p Q -> (forall r o, Q r o -> aborts o (k r)) -> aborts own (p ≫= k).
Proof.
  intros Hp Hk fr m Hm. destruct (Hp fr m Hm) as (r & m' & o & H1 & H2 & H3). unfold mbind, led_bind. rewrite H1.
  by apply (Hk r o H3 fr).
Qed.

Section BlockTest.
  Context {T : Type} `{Scalar T} `{Widths} (RT : repr T) (k : nat) (scan_g : bytes -> option T * bytes).
  Context {R : Type} (scan_f : bytes -> option R * bytes) (strict : bool).
  (** SMALLINDEXTYPE is narrower than INDEXTYPE, and than int *)
  Context (Hw : sitW < itW) (Hs : (N.of_nat sitW < 2147483648)%N).
  Implicit Types (F : fs) (B : coo T).
  Notation reads := (reads RT k scan_g).
  Notation block_main := (block_main RT k scan_g scan_f strict).
  Notation block_files := (block_files RT k scan_g scan_f strict).
  Notation block_file := (block_file RT k scan_g scan_f strict).
  Notation hoare := LedgerProof.hoare.
  Notation cells c := (Properties_Ledger.cells_block (Ledger.BmCoo c)).

  Lemma conversions B : timeable B -> let B0 := blank B in
    exists A1 A2 L A3 B1 A4 B2 A5 A6, Coo_to_Coo (fun i => i) B0 = Ok A1 /\ Coo_to_BlockCoo (c_elems B0) = Ok (A2, L) /\
      Coo_to_Csr (Coo (c_rows B0) (c_cols B0) L) = Ok (A3, B1) /\ Coo_to_Csr B1 = Ok (A4, B2) /\
      Coo_to_BlockCsr (c_elems B2) (c_rows B2) (c_cols B2) = Ok A5 /\ Coo_to_Dense (c_elems B2) (c_rows B2) (c_cols B2) = Ok A6.
  Proof using Hs Hw.
    intros (Ha & Hc & Hd & Hf) B0. apply blank_csr_able in Ha. fold B0 in Ha. destruct Ha as (Hr & Hrows & Hn).
    assert (Hf0 : Forall (fun e => row e < sitW /\ col e < sitW) (c_elems B0)) by (unfold B0, blank; cbn [c_elems]; by rewrite Forall_fmap).
    pose proof (Coo_to_BlockCoo_ok (c_elems B0) (or_intror (conj Hw Hs)) Hf0) as E2. cbv zeta in E2.
    set (L := isort compare_morton (c_elems B0)) in *.
    assert (HL : L ≡ₚ c_elems B0) by apply isort_perm.
    assert (HrL : in_range (c_rows B0) (c_cols B0) L) by (eapply in_range_perm; [symmetry; exact HL|done]).
    assert (HnL : length L < itW) by (rewrite HL; exact Hn).
    pose proof (Coo_to_Csr_spec (Coo (c_rows B0) (c_cols B0) L) HrL Hrows HnL) as E3. cbv zeta in E3. cbn [c_rows c_cols c_elems] in E3.
    set (L1 := isort compare_row L) in *.
    assert (HL1 : L1 ≡ₚ L) by apply isort_perm.
    assert (HrL1 : in_range (c_rows B0) (c_cols B0) L1) by (eapply in_range_perm; [symmetry; exact HL1|done]).
    assert (HnL1 : length L1 < itW) by (rewrite HL1; exact HnL).
    pose proof (Coo_to_Csr_spec (Coo (c_rows B0) (c_cols B0) L1) HrL1 Hrows HnL1) as E4. cbv zeta in E4. cbn [c_rows c_cols c_elems] in E4.
    set (L2 := isort compare_row L1) in *.
    assert (HL2 : L2 ≡ₚ L1) by apply isort_perm.
    assert (HrL2 : in_range (c_rows B0) (c_cols B0) L2) by (eapply in_range_perm; [symmetry; exact HL2|done]).
    assert (HnL2 : length L2 < itW) by (rewrite HL2; exact HnL1).
    pose proof (csr_build_spec swrap L2 (c_rows B0) (c_cols B0) (in_range_rows _ _ _ HrL2) Hrows HnL2) as E5.
    pose proof (Coo_to_Dense_spec L2 (c_rows B0) (c_cols B0) HrL2 Hc Hd) as E6.
    eexists _, _, L, _, _, _, _, _, _. split; [unfold Coo_to_Coo; rewrite copy_points_spec; reflexivity|].
    split; [exact E2|]. split; [exact E3|]. split; [exact E4|]. cbn [c_rows c_cols c_elems]. split; [exact E5|exact E6].
  Qed.

  Ltac al := eapply LedgerProof.hoare_bind; [apply LedgerProof.hoare_alloc|]; let p := fresh "p" in let o := fresh "o" in intros p o [-> _].
  Ltac fr := eapply LedgerProof.hoare_bind; [by apply LedgerProof.hoare_dealloc|]; intros [] ? ->.
  Tactic Notation "pu" constr(H) := rewrite (pure_bind _ _ _ H); cbn beta iota.
  Lemma coo_new_spec own : hoare own Ledger.coo_new (fun c o => o ≡ₚ cells c ++ own).
  Proof using Type. unfold Ledger.coo_new. do 3 al. apply LedgerProof.hoare_ret. cbn. solve_Permutation. Qed.
  Lemma csr_new_spec own : hoare own Ledger.csr_new (fun c o => o ≡ₚ Properties_Ledger.cells_block (Ledger.BmCsr c) ++ own).
  Proof using Type. unfold Ledger.csr_new. do 3 al. apply LedgerProof.hoare_ret. cbn. solve_Permutation. Qed.
  Lemma frl strict' own f p : hoare ((p, f) :: own) (Ledger.dealloc strict' f p) (fun _ o => o = own).
  Proof using Type. by apply LedgerProof.hoare_dealloc. Qed.
  (** one file: seven arrays are left: those of coo, csr and dense *)
  Lemma block_file_ok own F name B c0 v n r : reads F name B -> timeable B -> scan_label scan_f (basename name) v = Ok (Some n, Some r) ->
    hoare own (block_file F name (c0, v)) (fun res o => exists c lost, res = inl (Some c, (Some n, Some r), (n, c_nnz B, r)) /\
      o ≡ₚ cells c ++ lost ++ own /\ length lost = 4).
  Proof using Hs Hw.
    intros (A & HA & HB) Ht Hl. pose proof (coo_of_read_spec A B HB) as HR.
    destruct (conversions B Ht) as (A1 & A2 & L & A3 & B1 & A4 & B2 & A5 & A6 & E1 & E2 & E3 & E4 & E5 & E6).
    unfold BlockTest.block_file. pu HA. unfold Ledger.one_new at 1.
    eapply (LedgerProof.hoare_bind _ _ _ _ (fun a o => exists p, a = Some p /\ o = (p, Ledger.FNewArray) :: own)).
    { al. apply LedgerProof.hoare_ret. eauto. }
    intros a o (pa & -> & ->). cbn [Z.eqb negb]. rewrite (pure_bind (use (Some A)) A) by done. rewrite (pure_bind (use (Some pa)) pa) by done.
    pu HR. pu Hl. cbn [fst snd]. rewrite (pure_bind (use (Some n)) n) by done. rewrite (pure_bind (use (Some r)) r) by done.
    eapply LedgerProof.hoare_bind; [apply LedgerProof.hoare_alloc|]. intros px o1 [-> _].
    eapply LedgerProof.hoare_bind; [apply LedgerProof.hoare_alloc|]. intros py o1 [-> _].
    pu E1. eapply LedgerProof.hoare_bind; [apply coo_new_spec|]. intros c o1 O1.
    eapply LedgerProof.hoare_bind; [apply coo_new_spec|]. intros s o2 O2. pu E2.
    eapply LedgerProof.hoare_bind; [eapply LedgerProof.hoare_perm; [exact O2|]; apply (Properties_Ledger.block_release_spec strict _ (Ledger.BmCoo s))|]. intros [] o3 O3.
    pu E3. eapply LedgerProof.hoare_bind; [apply csr_new_spec|]. intros d o4 O4. pu E4.
    eapply (LedgerProof.hoare_bind _ _ _ _ (fun p o => o ≡ₚ (p.2, Ledger.FNewArray) :: (p.1, Ledger.FNewArray) :: o4)).
    { unfold Ledger.csr2_new. do 2 al. by apply LedgerProof.hoare_ret. }
    intros [e1 e2] o5 O5. cbn [fst snd] in O5.
    eapply (LedgerProof.hoare_bind _ _ _ _ (fun _ o => o = o4)).
    { eapply LedgerProof.hoare_perm; [exact O5|]. unfold Ledger.csr2_release. eapply LedgerProof.hoare_bind; [apply frl|]. intros [] ? ->. apply frl. }
    intros [] ? ->. pu E5. eapply LedgerProof.hoare_bind; [apply csr_new_spec|]. intros g o6 O6.
    eapply LedgerProof.hoare_bind; [eapply LedgerProof.hoare_perm; [exact O6|]; apply (Properties_Ledger.block_release_spec strict _ (Ledger.BmCsr g))|]. intros [] o7 O7.
    pu E6. unfold Ledger.one_new. eapply LedgerProof.hoare_bind; [apply LedgerProof.hoare_alloc|]. intros h o8 [-> _].
    set (lost := (h, Ledger.FNewArray) :: Properties_Ledger.cells_block (Ledger.BmCsr d)).
    assert (O9 : (h, Ledger.FNewArray) :: o7 ≡ₚ (py, Ledger.FMalloc) :: (px, Ledger.FMalloc) :: (pa, Ledger.FNewArray) :: cells c ++ lost ++ own).
    { rewrite O7, O4, O3, O1. unfold lost. destruct c as [[c1 c2] c3], d as [[d1 d2] d3]. cbn. solve_Permutation. }
    eapply LedgerProof.hoare_perm; [exact O9|].
    eapply LedgerProof.hoare_bind; [apply frl|]. intros [] ? ->.
    eapply LedgerProof.hoare_bind; [apply frl|]. intros [] ? ->.
    eapply LedgerProof.hoare_bind; [apply frl|]. intros [] ? ->.
    apply LedgerProof.hoare_ret. exists c, lost. rewrite blank_nnz. split; [done|]. split; [done|]. unfold lost. destruct d as [[d1 d2] d3]. done.
  Qed.

  (** ** C97 *)
  (** the files named by the user, as the program sees them: name, matrix, label *)
  Definition good F (f : bytes * coo T * N * R) : Prop :=
    let '(name, B, n, r) := f in reads F name B /\ timeable B /\ labelled scan_f name n r.
  Definition shown_line (f : bytes * coo T * N * R) : line := let '(_, B, n, r) := f in (n, c_nnz B, r).
  Definition named (f : bytes * coo T * N * R) : bytes := let '(name, _, _, _) := f in name.

  (** the label of the last of the files *)
  Definition last_label (files : list (bytes * coo T * N * R)) (v : labels (R := R)) : labels :=
    match last files with Some (_, _, n, r) => (Some n, Some r) | None => v end.
  (** the state after [j] files *)
  Definition after (j : nat) (c : option (nat * nat * nat)) (own : list (nat * Ledger.family)) : Prop :=
    match c with None => j = 0 /\ own = [] | Some c => exists lost, own ≡ₚ cells c ++ lost /\ length lost + 3 = 7 * j end.
  Lemma destroy_spec j c own : after (S j) (Some c) own ->
    hoare own (Ledger.coo_destroy strict (Some c)) (fun _ o => length o = 7 * S j - 3).
  Proof using Hs Hw.
    intros (lost & Ho & Hl). eapply LedgerProof.hoare_perm; [exact Ho|]. eapply LedgerProof.hoare_weaken; [apply (Properties_Ledger.block_release_spec strict lost (Ledger.BmCoo c))|].
    intros [] o Hp. rewrite (Permutation_length Hp). lia.
  Qed.
  Lemma files_prefix F files rest j c v own out (Q : Z * list line -> list (nat * Ledger.family) -> Prop) :
    Forall (good F) files -> after j c own ->
    (forall c' v' own', after (j + length files) c' own' -> v' = last_label files v -> hoare own' (block_files F rest (c', v') (out ++ (shown_line <$> files))) Q) ->
    hoare own (block_files F ((named <$> files) ++ rest) (c, v) out) Q.
  Proof using Hs Hw.
    intros Hf. revert j c v own out. induction Hf as [|f files Hg Hf IH]; intros j c v own out Ha HQ.
    - cbn [fmap list_fmap app length]. specialize (HQ c v own). rewrite Nat.add_0_r, app_nil_r in HQ. by apply HQ.
    - destruct f as [[[name B] n] r]. destruct Hg as (H1 & H2 & H3). cbn [fmap list_fmap app named]. cbn [BlockTest.block_files].
      eapply LedgerProof.hoare_bind; [apply (block_file_ok own F name B c v n r H1 H2); by apply scan_label_ok|].
      intros res o (c' & lost & -> & Ho & Hlost). cbn [fst snd]. apply (IH (S j)).
      + exists (lost ++ own). split; [exact Ho|]. rewrite app_length, Hlost. destruct c as [c|].
        * destruct Ha as (l & Hl & Hn). rewrite (Permutation_length Hl), app_length. destruct c as [[c1 c2] c3]. cbn [Properties_Ledger.cells_block length] in *. lia.
        * destruct Ha as [-> ->]. cbn. lia.
      + intros c2 v2 own2 Ha2 Hv2. rewrite <- app_assoc. cbn [app]. apply (HQ c2 v2 own2).
        * cbn [length]. by rewrite <- Nat.add_succ_comm.
        * rewrite Hv2. unfold last_label. rewrite last_cons. by destruct (last files).
  Qed.
  Lemma ends_hoare (p : led (Z * list (line (R := R)))) c out n : hoare [] p (fun r o => r = (c, out) /\ length o = n) -> ends_with p c out n.
  Proof using Hs Hw.
    intros Hp m Hv. apply Properties_Ledger.valid_owns in Hv. destruct (Hp _ _ Hv) as (r & m' & o & E & (L1 & L2 & L3 & L4) & -> & Hn).
    exists m', (list_to_map o). split; [exact E|]. split; [done|]. split.
    - apply map_disjoint_spec. intros i x y Hx Hy. apply elem_of_list_to_map_2 in Hx. specialize (L3 _ Hx). cbn in L3. congruence.
    - rewrite <- Hn. by apply Properties_Ledger.size_cells.
  Qed.
  (** every file can be read, converted and is labelled: exit code 0 and one line per file; per file
      seven arrays are not released, except the last three *)
  Theorem C97_all_files F files : files <> [] -> Forall (good F) files ->
    ends_with (block_main (named <$> files) F) 0 (shown_line <$> files) (7 * length files - 3).
  Proof using Hs Hw.
    intros Hne Hf. apply ends_hoare.
    assert (block_main (named <$> files) F = block_files F ((named <$> files) ++ []) (None, (None, None)) []) as ->.
    { rewrite app_nil_r. by destruct files. }
    apply (files_prefix F files [] 0); [done|by split|]. intros c v own Ha _. cbn [BlockTest.block_files fst app].
    destruct files as [|f files]; [done|]. destruct c as [c|]; [|destruct Ha as [Ha _]; cbn in Ha; lia].
    eapply LedgerProof.hoare_bind; [apply (destroy_spec (length files) c own Ha)|]. intros [] o Ho. by apply LedgerProof.hoare_ret.
  Qed.
  (** a file that the reader refuses after others: exit code 1, the lines of the others; what the
      reader had allocated is left, too *)
  Theorem C97_refused_later F files name rest ret A : files <> [] -> Forall (good F) files -> read_file RT k scan_g F name = Ok (ret, A) -> ret <> 0%Z ->
    ends_with (block_main ((named <$> files) ++ name :: rest) F) 1 (shown_line <$> files)
      (7 * length files - 3 + match A with Some _ => 1 | None => 0 end).
  Proof using Hs Hw.
    intros Hne Hf HA Hr. apply ends_hoare.
    assert (block_main ((named <$> files) ++ name :: rest) F = block_files F ((named <$> files) ++ name :: rest) (None, (None, None)) []) as ->.
    { by destruct files. }
    apply (files_prefix F files _ 0); [done|by split|]. intros c v own Ha _. cbn [BlockTest.block_files fst app].
    destruct files as [|f files]; [done|]. destruct c as [c|]; [|destruct Ha as [Ha _]; cbn in Ha; lia].
    apply Z.eqb_neq in Hr. unfold BlockTest.block_file. pu HA. rewrite Hr. cbn [negb].
    eapply (LedgerProof.hoare_bind _ _ _ _ (fun res o => res = inr 1%Z /\ exists l, o = l ++ own /\ length l = match A with Some _ => 1 | None => 0 end)).
    { destruct A as [A|].
      - eapply (LedgerProof.hoare_bind _ _ _ _ (fun _ o => exists l, o = l ++ own /\ length l = 1)).
        + unfold Ledger.one_new. al. apply LedgerProof.hoare_ret. by exists [(p, Ledger.FNewArray)].
        + intros a o Ho. by apply LedgerProof.hoare_ret.
      - eapply (LedgerProof.hoare_bind _ _ _ _ (fun _ o => o = own)).
        + by apply LedgerProof.hoare_ret.
        + intros a o ->. apply LedgerProof.hoare_ret. split; [done|]. by exists []. }
    intros res o (-> & l & -> & Hl). destruct Ha as (lost & Ho & Hlost).
    eapply LedgerProof.hoare_bind.
    - eapply LedgerProof.hoare_perm; [|apply (Properties_Ledger.block_release_spec strict (l ++ lost) (Ledger.BmCoo c))].
      rewrite Ho. destruct c as [[c1 c2] c3]. cbn. solve_Permutation.
    - intros [] o Hp. apply LedgerProof.hoare_ret. split; [done|]. rewrite (Permutation_length Hp), app_length, Hl. cbn [length] in *. lia.
  Qed.

  (** the same as an equation between runs, for the programs that do not end well *)
  Lemma files_run F files rest j c v own out fr m : Forall (good F) files -> after j c own -> LedgerProof.owns own fr m ->
    exists c' own' m', after (j + length files) c' own' /\ LedgerProof.owns own' fr m' /\
      block_files F ((named <$> files) ++ rest) (c, v) out m = block_files F rest (c', last_label files v) (out ++ (shown_line <$> files)) m'.
  Proof using Hs Hw.
    intros Hf. revert j c v own out m. induction Hf as [|f files Hg Hf IH]; intros j c v own out m Ha Hm.
    - exists c, own, m. cbn [length fmap list_fmap app]. rewrite Nat.add_0_r, app_nil_r. done.
    - destruct f as [[[name B] n] r]. destruct Hg as (H1 & H2 & H3). cbn [fmap list_fmap app named].
      destruct (block_file_ok own F name B c v n r H1 H2 (scan_label_ok _ _ _ _ _ H3) fr m Hm) as (res & m1 & o & E & Ho1 & c' & lost & -> & Ho & Hlost).
      assert (Ha' : after (S j) (Some c') o).
      { exists (lost ++ own). split; [exact Ho|]. rewrite app_length, Hlost. destruct c as [c|].
        * destruct Ha as (l & Hl & Hn). rewrite (Permutation_length Hl), app_length. destruct c as [[c1 c2] c3]. cbn [Properties_Ledger.cells_block length] in *. lia.
        * destruct Ha as [-> ->]. cbn. lia. }
      destruct (IH (S j) (Some c') (Some n, Some r) o (out ++ [(n, c_nnz B, r)]) m1 Ha' Ho1) as (c2 & own2 & m2 & Ha2 & Hm2 & E2).
      exists c2, own2, m2. split; [cbn [length]; by rewrite <- Nat.add_succ_comm|]. split; [done|].
      cbn [BlockTest.block_files]. unfold mbind at 1, led_bind. rewrite E. cbn [mbind outcome_bind]. etransitivity; [exact E2|].
      rewrite <- app_assoc. cbn [app shown_line]. f_equal. f_equal. unfold last_label. rewrite last_cons. by destruct (last files).
  Qed.
  Lemma main_run F files name rest m : Properties_Ledger.valid m -> Forall (good F) files -> exists c own m', after (length files) c own /\ LedgerProof.owns own (Ledger.l_live m) m' /\
    block_main ((named <$> files) ++ name :: rest) F m = block_files F (name :: rest) (c, last_label files (None, None)) (shown_line <$> files) m'.
  Proof using Hs Hw.
    intros Hv Hf. apply Properties_Ledger.valid_owns in Hv.
    destruct (files_run F files (name :: rest) 0 None (None, None) [] [] _ m Hf (conj eq_refl eq_refl) Hv) as (c & own & m' & H1 & H2 & H3).
    exists c, own, m'. split; [done|]. split; [done|]. cbn [app] in H3. etransitivity; [|exact H3]. by destruct files.
  Qed.
  (** no arguments: the usage message, and then the destructor of a local that was never filled *)
  Theorem C97_no_arguments_refuted F m : block_main [] F m = Undef Uninit.
  Proof using Type. done. Qed.
  (** the first file is refused: likewise *)
  Theorem C97_first_refused_refuted F name rest ret A m : read_file RT k scan_g F name = Ok (ret, A) -> ret <> 0%Z ->
    block_main (name :: rest) F m = Undef Uninit.
  Proof using Type.
    intros HA Hr. apply Z.eqb_neq in Hr. unfold BlockTest.block_main. cbn [BlockTest.block_files]. unfold BlockTest.block_file. pu HA. rewrite Hr. cbn [negb].
    destruct A; reflexivity.
  Qed.
  (** a file that can be read but has an index the short type cannot hold: the program aborts, also
      after other files *)
  Theorem C97_large_index F files name rest B n r m : Properties_Ledger.valid m -> Forall (good F) files -> reads F name B -> labelled scan_f name n r ->
    (exists e, e ∈ c_elems B /\ (sitW <= row e \/ sitW <= col e)) ->
    block_main ((named <$> files) ++ name :: rest) F m = Abort.
  Proof using Hs Hw.
    intros Hv Hf (A & HA & HB) Hl (e & He & Hbig). destruct (main_run F files name rest m Hv Hf) as (c & own & m' & _ & Hm & ->).
    pose proof (coo_of_read_spec A B HB) as HR.
    assert (E2 : Coo_to_BlockCoo (c_elems (blank B)) = Abort).
    { destruct (Coo_to_BlockCoo_spec (c_elems (blank B)) Hw Hs) as [[HF _]|[_ E2]]; [|done]. exfalso.
      unfold blank in HF. cbn [c_elems] in HF. rewrite Forall_fmap in HF. rewrite Forall_forall in HF. specialize (HF e He). cbn in HF. lia. }
    cbn [BlockTest.block_files].
    cut (aborts own (block_file F name (c, last_label files (None, None)))).
    { intros Hc. unfold mbind, led_bind. by rewrite (Hc _ _ Hm). }
    unfold BlockTest.block_file. pu HA. cbn [Z.eqb negb].
    eapply (aborts_bind_r _ _ _ (fun a o => exists p, a = Some p)).
    { unfold Ledger.one_new. eapply LedgerProof.hoare_bind; [apply LedgerProof.hoare_alloc|]. intros p o1 _. apply LedgerProof.hoare_ret. eauto. }
    intros a o (pa & ->). rewrite (pure_bind (use (Some A)) A) by done. rewrite (pure_bind (use (Some pa)) pa) by done.
    pu HR. pu (scan_label_ok scan_f name n r (last_label files (None, None)) Hl). cbn [fst snd]. rewrite (pure_bind (use (Some n)) n) by done. rewrite (pure_bind (use (Some r)) r) by done.
    eapply aborts_bind_r; [apply LedgerProof.hoare_alloc|]. intros px o1 _.
    eapply aborts_bind_r; [apply LedgerProof.hoare_alloc|]. intros py o2 _.
    assert (exists A1, Coo_to_Coo (fun i => i) (blank B) = Ok A1) as (A1 & E1) by (eexists; unfold Coo_to_Coo; rewrite copy_points_spec; reflexivity).
    pu E1. eapply aborts_bind_r; [apply coo_new_spec|]. intros c1 o3 _.
    eapply aborts_bind_r; [apply coo_new_spec|]. intros s1 o4 _. rewrite E2. by intros fr m0 _.
  Qed.
  (** the first file has no label: the program prints variables that were never set *)
  Theorem C97_unlabelled_first_refuted F name rest B m : Properties_Ledger.valid m -> reads F name B -> unlabelled name ->
    block_main (name :: rest) F m = Undef Uninit.
  Proof using Type.
    intros Hv (A & HA & HB) Hl. pose proof (coo_of_read_spec A B HB) as HR. apply Properties_Ledger.valid_owns in Hv. revert Hv.
    generalize (Ledger.l_live m). revert m. intros m fr. revert fr m. change (LedgerProof.fails [] (block_main (name :: rest) F) Uninit).
    unfold BlockTest.block_main. cbn [BlockTest.block_files]. apply LedgerProof.fails_bind.
    unfold BlockTest.block_file. pu HA. cbn [Z.eqb negb].
    eapply (LedgerProof.fails_bind_r _ _ _ _ (fun a o => exists p, a = Some p)).
    { unfold Ledger.one_new. eapply LedgerProof.hoare_bind; [apply LedgerProof.hoare_alloc|]. intros p o1 _. apply LedgerProof.hoare_ret. eauto. }
    intros a o (pa & ->). rewrite (pure_bind (use (Some A)) A) by done. rewrite (pure_bind (use (Some pa)) pa) by done.
    pu HR. pu (scan_label_none scan_f name (None, None) Hl). by intros fr m _.
  Qed.
  (** a later file has no label: its line shows the label of the file before *)
  Theorem C97_unlabelled_stale_refuted F files f0 name B : Forall (good F) (files ++ [f0]) -> reads F name B -> timeable B -> unlabelled name ->
    let '(_, _, n, r) := f0 in
    ends_with (block_main ((named <$> files ++ [f0]) ++ [name]) F) 0 ((shown_line <$> files ++ [f0]) ++ [(n, c_nnz B, r)]) (7 * (length files + 2) - 3).
  Proof using Hs Hw.
    intros Hf HB Ht Hl. destruct f0 as [[[name0 B0] n] r] eqn:Ef. apply ends_hoare. rewrite <- Ef in *.
    assert (block_main ((named <$> files ++ [f0]) ++ [name]) F = block_files F ((named <$> files ++ [f0]) ++ [name]) (None, (None, None)) []) as ->.
    { by destruct files. }
    apply (files_prefix F _ _ 0); [done|by split|]. intros c v own Ha Hv. unfold last_label in Hv. rewrite last_snoc, Ef in Hv. subst v.
    cbn [BlockTest.block_files app].
    eapply LedgerProof.hoare_bind; [apply (block_file_ok own F name B c _ n r HB Ht); by apply scan_label_none|].
    intros res o (c' & lost & -> & Ho & Hlost). cbn [fst snd].
    assert (Ha' : after (S (S (length files))) (Some c') o).
    { exists (lost ++ own). split; [exact Ho|]. rewrite app_length, Hlost. rewrite app_length in Ha. cbn [length] in Ha. destruct c as [c|].
      - destruct Ha as (l & E & Hn). rewrite (Permutation_length E), app_length. destruct c as [[c1 c2] c3]. cbn [Properties_Ledger.cells_block length] in *. lia.
      - destruct Ha as [Ha _]. lia. }
    eapply LedgerProof.hoare_bind; [apply (destroy_spec _ c' o Ha')|]. intros [] o' Ho'. apply LedgerProof.hoare_ret. split; [done|]. lia.
  Qed.
End BlockTest.

(** the hypotheses are met: two labelled files, one of them in a directory, one without a label, one
    with an index beyond the short type *)
Definition ex_B97 : coo Z := Coo 20 20 [Elem 3 17 5 0; Elem 0 2 2 0]%Z.
Definition ex_fs97 : fs := <[str "d/size5ratio2.bin" := write_bin_COO ex_RZ 1 ex_D]> (<[str "size20ratio1.bin" := write_bin_COO ex_RZ 1 ex_B97]>
  {[str "m.bin" := write_bin_COO ex_RZ 1 ex_D]}).
(** a toy %f: one digit *)
Definition ex_scan_f (s : bytes) : option nat * bytes := match s with c :: s => (Some (c - 48), s) | [] => (None, s) end.
Example C97_ex :
  @good Z ex_W16 ex_RZ 1 ex_scan _ ex_scan_f ex_fs97 (str "d/size5ratio2.bin", ex_D, 5%N, 2) /\
  @reads Z ex_W16 ex_RZ 1 ex_scan ex_fs97 (str "m.bin") ex_D /\ @timeable Z ex_W16 ex_D /\ unlabelled (str "m.bin") /\
  @reads Z ex_W16 ex_RZ 1 ex_scan ex_fs97 (str "size20ratio1.bin") ex_B97 /\ labelled ex_scan_f (str "size20ratio1.bin") 20 1 /\
  (exists e, e ∈ c_elems ex_B97 /\ (@sitW ex_W16 <= row e \/ @sitW ex_W16 <= col e)) /\
  read_file (H0 := ex_W16) ex_RZ 1 ex_scan ex_fs97 (str "none.bin") = Ok ((-1)%Z, None).
Proof.
  assert (Hk : @index_bytes ex_W16 1) by (split; [lia|done]).
  assert (Hf : @fits ex_W16 Z ex_D) by (vm_compute; repeat split; try lia; repeat constructor; lia).
  assert (Hf' : @fits ex_W16 Z ex_B97) by (vm_compute; repeat split; try lia; repeat constructor; lia).
  assert (Ht : @timeable Z ex_W16 ex_D) by (vm_compute; repeat split; try lia; repeat constructor; lia).
  split; [split; [|split; [exact Ht|]]|].
  - apply C80_reads_bin; [exact Hk|exact ex_RZ_storable|exact Hf|by exists (str "d/size5ratio2")|done].
  - exists (str "5"), (str "2.bin"), (str ".bin"). split; [split; [apply (bool_decide_unpack _); vm_compute; exact Logic.I|right; by exists (str "d")]|].
    split; [split; [repeat constructor; done|done]|]. split; [done|]. split; [by exists 50, (str ".bin")|done].
  - split; [apply C80_reads_bin; [exact Hk|exact ex_RZ_storable|exact Hf|by exists (str "m")|done]|]. split; [exact Ht|].
    split; [exists (str "m.bin"); split; [split; [apply (bool_decide_unpack _); vm_compute; exact Logic.I|by left]|intros s; done]|].
    split; [apply C80_reads_bin; [exact Hk|exact ex_RZ_storable|exact Hf'|by exists (str "size20ratio1")|done]|].
    split; [|split; [|vm_compute; reflexivity]].
    + exists (str "20"), (str "1.bin"), (str ".bin"). split; [split; [apply (bool_decide_unpack _); vm_compute; exact Logic.I|by left]|].
      split; [split; [repeat constructor; done|done]|]. split; [done|]. split; [by exists 49, (str ".bin")|done].
    + exists (Elem 3 17 5%Z 0). split; [left|]. right. vm_compute. lia.
Qed.
(** ... and run on two of them the program ends like this: eleven arrays lost *)
Example C97_run :
  match @block_main Z _ ex_W16 ex_RZ 1 ex_scan _ ex_scan_f true [str "d/size5ratio2.bin"; str "m.bin"] ex_fs97 (Ledger.Ledger 0 ∅) with
  | Ok (r, m) => Ok (r, size (Ledger.l_live m)) | Undef u => Undef u | Abort => Abort | Diverge => Diverge end
  = Ok ((0%Z, [(5%N, 5, 2); (5%N, 5, 2)]), 11).
Proof. vm_compute. reflexivity. Qed.
