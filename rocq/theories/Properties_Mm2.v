(** Properties_Mm2.v: C62-C65, whole Matrix Market files, the header writers and the choice
    of the reader (include/io/input.h:36-127, 334-346, include/io/output.h:28-75,
    dep/mm_io/mm_io.c:661-687, 771-796, src/common.cpp:67-79).

    The conversions %lg and %f are parameters: scan_g and print_f are any functions; what is
    assumed of them is stated where it is used ([real_text v t]: at t, followed by white space
    or the end, %lg gives v and takes exactly t). *)
From Verif Require Import Properties_Mm.
From Verif Require Export Mm2Proof.
From Coq Require Import ZifyNat ZifyBool ZifyN.

(** a banner line naming the type t, comment lines, and a size line *)
Definition mm_header (t : typecode) (a b c : Z) (h : bytes) : Prop :=
  exists ban cs sl, h = ban ++ [10] ++ concat cs ++ sl ++ [10] /\ names_type (words ban) t /\ short_words ban /\
    Forall (fun c => c <> 10 /\ c <> 0) ban /\ length ban < 1024 /\ Forall comment_line cs /\ size_line a b c sl.
(** the elements denoted by the entries of a file, numbered from 1 *)
Definition listed {T} (e : N * N * T) : elem T := Elem (N.to_nat e.1.1 - 1) (N.to_nat e.1.2 - 1) e.2 0.
Definition transposed {T} (e : elem T) : elem T := Elem (col e) (row e) (val e) (blk e).
Definition mirrored {T} (e : N * N * T) : list (elem T) := listed e :: if decide (e.1.1 = e.1.2) then [] else [transposed (listed e)].
(** the arrays of A hold the matrix B in their first elements *)
Definition raw_holds {T} (A : rawcoo T) (B : coo T) : Prop :=
  r_rows A = c_rows B /\ r_cols A = c_cols B /\ r_nnz A = c_nnz B /\
  take (c_nnz B) (r_row A) = full (row <$> c_elems B) /\ take (c_nnz B) (r_col A) = full (col <$> c_elems B) /\ take (c_nnz B) (r_val A) = full (val <$> c_elems B).
(** numbers of entries: from 1 to the number of values of the index type *)
Definition indexable `{Widths} {T} (e : N * N * T) : Prop := (1 <= e.1.1 <= N.of_nat itW /\ 1 <= e.1.2 <= N.of_nat itW /\ e.1.1 <= ulong_max /\ e.1.2 <= ulong_max)%N.

Section files.
  Context {T : Type} `{Widths} (scan_g : bytes -> option T * bytes).
  Implicit Types l : list (N * N * T).

  Lemma index_of_small r : (1 <= r <= N.of_nat itW)%N -> index_of r = N.to_nat r - 1.
  Proof.
    intros Hr. unfold index_of, wsub, wrap. destruct (decide (r = N.of_nat itW)) as [->|Hne].
    - rewrite N.mod_same by lia. rewrite Nat2N.id. change (N.to_nat 0) with 0. rewrite Nat.add_0_l. apply Nat.mod_small. lia.
    - rewrite N.mod_small by lia. destruct (decide (itW = 1)) as [E1|E1]; [lia|].
      replace (N.to_nat r + (itW - 1)) with (N.to_nat r - 1 + 1 * itW) by lia. rewrite Nat.mod_add by lia. apply Nat.mod_small. lia.
  Qed.
  Lemma readable_indexable l : Forall indexable l -> Forall readable l.
  Proof. intros Hl. eapply Forall_impl; [exact Hl|]. intros e (H1 & H2 & H3 & H4). unfold readable. lia. Qed.
  Lemma stored_listed l : Forall indexable l -> flat_map (stored false) l = listed <$> l.
  Proof.
    induction 1 as [|e l (H1 & H2 & _) Hl IH]; [done|]. cbn [flat_map fmap list_fmap]. unfold list_fmap in IH. rewrite IH. unfold stored, listed. by rewrite !index_of_small.
  Qed.
  Lemma stored_mirrored l : Forall indexable l -> flat_map (stored true) l = flat_map mirrored l.
  Proof.
    induction 1 as [|e l (H1 & H2 & _) Hl IH]; [done|]. cbn [flat_map]. rewrite IH. f_equal. unfold stored, mirrored, listed, transposed. cbn [row col val blk].
    rewrite !index_of_small by done. cbn [andb]. destruct (N.eqb_spec e.1.1 e.1.2); destruct (decide (e.1.1 = e.1.2)); done.
  Qed.
  Lemma int_to_index_small (z : Z) : (0 <= z < Z.of_nat itW)%Z -> int_to_index z = Z.to_nat z.
  Proof. intros Hz. unfold int_to_index. by rewrite Z.mod_small. Qed.
  Lemma read_header fuel t a b c h f : mm_header t a b c h ->
    read_mm_COO scan_g fuel (Some (h ++ f)) =
      if mm_is_complex t || negb (mm_is_coordinate t) then Ok ((-3)%Z, None) else
      '(nnz, v) ← (if mm_is_symmetric t then
                     '(counter, v) ← count_pass scan_g c f;
                     if (int_max <? Z.of_N counter)%Z then Undef Overflow else Ok (Z.of_N counter, v)
                   else Ok (c, (None, None, None)));
      '(n, (ri, ci, vs)) ← data_pass scan_g (mm_is_symmetric t) (int_to_index nnz) f v;
      Ok (0%Z, Some (RawCoo (int_to_index a) (int_to_index b) n ri ci vs)).
  Proof.
    intros (ban & cs & sl & -> & Ht & Hs & Hch & Hlen & Hcs & Hsl). unfold read_mm_COO. rewrite <- !app_assoc.
    rewrite (mm_read_banner_line ban _ t) by done. cbn [mbind outcome_bind]. change (negb (0 =? 0)%Z) with false. cbn iota.
    destruct (mm_is_complex t || negb (mm_is_coordinate t)); [done|].
    rewrite (C61_size fuel cs a b c sl f) by done. done.
  Qed.
  Lemma raw_holds_parts a b (D : list (elem T)) n : length D <= n ->
    raw_holds (RawCoo a b (length D) (part (row <$> D) n) (part (col <$> D) n) (part (val <$> D) n)) (Coo a b D).
  Proof.
    intros Hn. unfold raw_holds, c_nnz. cbn [r_rows r_cols r_nnz r_row r_col r_val c_rows c_cols c_elems]. repeat (split; [done|]). unfold part.
    rewrite !take_app_alt by (by rewrite full_length, fmap_length). done.
  Qed.

  (** C62: a coordinate file that is not complex and not marked symmetric, of any number of
      entries up to the announced one: the matrix read has exactly the entries listed, in
      order, numbered from 0 (no test of the numbers against the dimensions is made) *)
  Theorem C62_general fuel t nr nc nnz h l f rest : mm_header t nr nc nnz h -> mm_is_complex t = false -> mm_is_coordinate t = true -> mm_is_symmetric t = false ->
    (0 <= nr < Z.of_nat itW)%Z -> (0 <= nc < Z.of_nat itW)%Z -> (0 <= nnz < Z.of_nat itW)%Z ->
    entries_text scan_g l f rest -> Forall indexable l ->
    length l <= Z.to_nat nnz -> (length l < Z.to_nat nnz -> spaces rest) ->
    exists A, read_mm_COO scan_g fuel (Some (h ++ f)) = Ok (0%Z, Some A) /\ raw_holds A (Coo (Z.to_nat nr) (Z.to_nat nc) (listed <$> l)).
  Proof.
    intros Hh Hx Hc Hs Hr1 Hr2 Hr3 He Hi Hle Hlt. rewrite (read_header fuel t nr nc nnz) by done. rewrite Hx, Hc, Hs. cbn [negb orb mbind outcome_bind].
    rewrite !int_to_index_small by done. pose proof (stored_listed l Hi) as Hst.
    rewrite (data_pass_spec scan_g false _ l f rest); [|done|by apply readable_indexable|rewrite Hst, fmap_length..]; [|done|done].
    rewrite Hst. cbn [mbind outcome_bind parts]. eexists. split; [done|]. apply raw_holds_parts. by rewrite fmap_length.
  Qed.
  (** C62: a file marked symmetric: every entry off the diagonal is followed by its mirror
      image; the announced number of entries matters only as long as the entries are no more
      than twice as many *)
  Theorem C62_symmetric fuel t nr nc nnz h l f rest : mm_header t nr nc nnz h -> mm_is_complex t = false -> mm_is_coordinate t = true -> mm_is_symmetric t = true ->
    (int_max < Z.of_nat itW)%Z ->
    (0 <= nr)%Z -> (0 <= nc)%Z -> (0 <= 2 * nnz <= int_max)%Z ->
    entries_text scan_g l f rest -> Forall indexable l -> spaces rest ->
    length l <= Z.to_nat (2 * nnz) -> (Z.of_nat (length (flat_map mirrored l)) <= int_max)%Z ->
    exists A, read_mm_COO scan_g fuel (Some (h ++ f)) = Ok (0%Z, Some A) /\ raw_holds A (Coo (Z.to_nat nr) (Z.to_nat nc) (flat_map mirrored l)).
  Proof.
    intros Hh Hx Hc Hs Hw Hr1 Hr2 Hr3 He Hi Hsp Hle Htot. rewrite (read_header fuel t nr nc nnz) by done. rewrite Hx, Hc, Hs. cbn [negb orb].
    assert (Hdims : int_range nr /\ int_range nc) by (destruct Hh as (? & ? & ? & _ & _ & _ & _ & _ & _ & (? & ? & ? & ? & ? & ? & ? & Hsl)); tauto).
    destruct Hdims as [Hd1 Hd2]. unfold int_range in *.
    pose proof (stored_mirrored l Hi) as Hst.
    destruct (count_pass_spec scan_g nnz l f rest) as [v ->]; [done|by apply readable_indexable|lia|lia|apply int_to_index_small; lia|done|done|].
    cbn [mbind outcome_bind]. rewrite sum_count_length, Hst, nat_N_Z. rewrite (proj2 (Z.ltb_ge _ _)) by lia. cbn [mbind outcome_bind].
    rewrite (int_to_index_small nr), (int_to_index_small nc), (int_to_index_small (Z.of_nat _)), Nat2Z.id by lia.
    rewrite (data_pass_spec scan_g true _ l f rest); [|done|by apply readable_indexable|rewrite Hst; lia..].
    rewrite Hst. cbn [mbind outcome_bind parts]. eexists. split; [done|]. by apply raw_holds_parts.
  Qed.
  (** ... so the matrix read is symmetric: transposing every element gives the same elements *)
  Theorem C62_is_symmetric l : (transposed <$> flat_map mirrored l) ≡ₚ flat_map mirrored l.
  Proof.
    induction l as [|e l IH]; [done|]. cbn [flat_map]. rewrite fmap_app, IH. apply Permutation_app_tail.
    unfold mirrored. destruct (decide (e.1.1 = e.1.2)) as [Heq|]; cbn [fmap list_fmap].
    - unfold transposed, listed. cbn [row col val blk]. by rewrite Heq.
    - unfold transposed at 2. unfold transposed at 2. cbn [row col val blk]. unfold listed at 2 3. cbn [row col val blk]. apply Permutation_swap.
  Qed.
  (** C62: whatever the file holds, no array element outside the allocated ones is written *)
  Theorem C62_safe fuel file : (int_max < Z.of_nat itW)%Z -> read_mm_COO scan_g fuel file <> Undef OutOfBounds.
  Proof.
    intros Hw. assert (Hgoal : safe (read_mm_COO scan_g fuel file) (fun _ => True)); [|by intros E; rewrite E in Hgoal].
    destruct file as [f|]; [|done]. unfold read_mm_COO.
    assert (Hwords : forall n s, safe (sscanf_words n s) (fun _ => True)).
    { induction n as [|n IH]; intros s; [done|]. cbn [sscanf_words]. apply safe_bind. unfold scan_s. destruct (skip_space s); [done|].
      destruct (span _ _) as [w r]. destruct (_ <=? _); [done|]. cbn [safe]. apply safe_bind. eapply safe_mono; [apply IH|]. by intros ? _. }
    assert (Hd : forall s, safe (scan_d s) (fun _ => True)).
    { intros s. unfold scan_d. destruct (skip_space s); [done|]. destruct (scan_digits _) as [[[neg n0]|] r]; [|done]. by destruct (_ || _). }
    assert (Hddd : forall s v, safe (scan_ddd s v) (fun _ => True)).
    { intros s [[m n] nz]. unfold scan_ddd. apply safe_bind. eapply safe_mono; [apply Hd|]. intros [[| |?] ?] _; [done..|].
      apply safe_bind. eapply safe_mono; [apply Hd|]. intros [[| |?] ?] _; [done..|]. apply safe_bind. eapply safe_mono; [apply Hd|]. by intros [[| |?] ?] _. }
    assert (Hloop : forall n s v, safe (size_loop n s v) (fun _ => True)).
    { induction n as [|n IH]; intros s v; [done|]. cbn [size_loop]. apply safe_bind. eapply safe_mono; [apply Hddd|]. intros [[ret v'] s'] _.
      destruct (ret =? -1)%Z; [done|]. destruct (ret =? 3)%Z; [done|]. apply IH. }
    apply safe_bind. apply (safe_mono _ (fun _ => True)).
    { unfold mm_read_banner. destruct (fgets _ f) as [[line f']|]; [|done]. apply safe_bind. eapply safe_mono; [apply Hwords|]. intros ws _.
      destruct ws as [|? [|? [|? [|? [|? [|? ?]]]]]]; try done. destruct (has_prefix _ _); [|done]. by destruct (banner_fields _ _ _ _ _). }
    intros [[code t] f1] _. destruct (code =? 0)%Z; [|done]. cbn [negb]. destruct (mm_is_complex t || negb (mm_is_coordinate t)); [done|].
    apply safe_bind. apply (safe_mono _ (fun _ => True)).
    { unfold mm_read_mtx_crd_size. destruct (skip_comments_ends (S (length f1)) f1) as [r ->]; [lia|]. cbn [mbind outcome_bind]. destruct r as [[line f2]|]; [|done].
      apply safe_bind. eapply safe_mono; [apply Hddd|]. intros [[ret v] ?] _. destruct (ret =? 3)%Z; [done|]. apply Hloop. }
    intros [[code2 [[nr nc] nnz]] f2] _. destruct (code2 =? 0)%Z; [|done]. cbn [negb].
    destruct (mm_is_symmetric t).
    - destruct (count_pass scan_g nnz f2) as [[counter v]|u| |] eqn:Hcp; cbn [mbind outcome_bind]; [| |done|done].
      + destruct (Z.ltb_spec int_max (Z.of_N counter)) as [Hm|Hm]; [done|]. cbn [mbind outcome_bind].
        rewrite (int_to_index_small (Z.of_N counter)) by lia.
        replace (Z.to_nat (Z.of_N counter)) with (N.to_nat counter) by lia.
        apply safe_bind. eapply safe_mono; [by eapply data_pass_safe_symmetric|]. intros [n [[ri ci] vs]] _. done.
      + assert (Hcs : safe (count_pass scan_g nnz f2) (fun _ => True)); [|by rewrite Hcp in Hcs].
        unfold count_pass. destruct (_ || _); [done|]. apply safe_bind. apply (safe_mono _ (fun _ => True)); [|by intros [[[[? ?] ?] ?] ?] _].
        match goal with |- safe (while_ ?fl ?c ?b ?s0) _ => cut (forall n st, safe (while_ n c b st) (fun _ => True)); [intros Hn; apply Hn|] end.
        induction n as [|fl IH]; intros st; [done|]. cbn [while_]. destruct st as [[[[stop i] k] v] s]. cbn [mbind outcome_bind]. destruct (_ && _); [|done].
        apply safe_bind. apply (safe_mono _ (fun _ => True)); [|intros st' _; apply IH]. unfold count_step. apply safe_bind.
        eapply safe_mono; [apply scan_entry_safe|]. intros [[ret [[r c] x]] s'] _. destruct (ret =? -1)%Z; [done|]. destruct r; [|done]. by destruct c.
    - cbn [mbind outcome_bind]. apply safe_bind. eapply safe_mono; [apply data_pass_safe_general|]. intros [n [[ri ci] vs]] _. done.
  Qed.
End files.

(** ** files that are not read as what they denote *)
Local Ltac step_by Hs := match goal with |- context [data_step ?g ?b ?st] => match type of Hs with _ = ?r => replace (data_step g b st) with r by (symmetry; exact Hs) end end.
Section refuted.
  Context {T : Type} `{Widths} (scan_g : bytes -> option T * bytes).
  (** C62: in a file marked skew-symmetric (or hermitian) an entry stands for itself and for
      its negated (conjugate) mirror image.  The mirror image is not added: position (c,r) of
      the matrix read is empty unless the file lists it *)
  Theorem C62_skew_refuted fuel t nr nc nnz h (l : list (N * N * T)) f rest r c v : mm_header t nr nc nnz h -> mm_is_complex t = false -> mm_is_coordinate t = true ->
    mm_is_skew t || mm_is_hermitian t = true ->
    (0 <= nr < Z.of_nat itW)%Z -> (0 <= nc < Z.of_nat itW)%Z -> nnz = Z.of_nat (length l) -> (nnz < Z.of_nat itW)%Z ->
    entries_text scan_g l f rest -> Forall indexable l -> (r, c, v) ∈ l -> (forall v', (c, r, v') ∉ l) ->
    exists A B, read_mm_COO scan_g fuel (Some (h ++ f)) = Ok (0%Z, Some A) /\ raw_holds A B /\
      listed (r, c, v) ∈ c_elems B /\ forall e, e ∈ c_elems B -> (row e, col e) <> (N.to_nat c - 1, N.to_nat r - 1).
  Proof.
    intros Hh Hx Hc Hs Hr1 Hr2 -> Hr3 He Hi Hin Hno.
    assert (Hns : mm_is_symmetric t = false).
    { unfold mm_is_skew, mm_is_hermitian, mm_is_symmetric in *. apply Nat.eqb_neq. intros E. rewrite E in Hs. done. }
    destruct (C62_general scan_g fuel t nr nc (Z.of_nat (length l)) h l f rest) as (A & HA & HB); try done; [lia|lia|lia|].
    exists A, (Coo (Z.to_nat nr) (Z.to_nat nc) (listed <$> l)). split; [done|]. split; [done|]. cbn [c_elems]. split; [by apply elem_of_list_fmap_1|].
    intros e (e0 & -> & He0)%elem_of_list_fmap [= E1 E2]. rewrite Forall_forall in Hi. destruct (Hi _ He0) as (G1 & G2 & _), (Hi _ Hin) as (G3 & G4 & _).
    destruct e0 as [[r0 c0] v0]. cbn [fst snd] in *. assert (r0 = c) by lia. assert (c0 = r) by lia. subst. by apply (Hno v0).
  Qed.
  (** C62: in a file of type pattern an entry has no value; two entries (a,b) and (c,d) are
      read as value c at (a,b) and value c at (d,b).  (of_N: what %lg gives for a number) *)
  Theorem C62_pattern_refuted (of_N : N -> T) fuel t nr nc h a b c d ta tb tc td w0 w1 w2 w3 w4 : (forall n t, num_text n t -> real_text scan_g (of_N n) t) ->
    mm_header t nr nc 2 h -> mm_is_pattern t = true -> mm_is_coordinate t = true -> mm_is_symmetric t = false -> 2 < itW ->
    num_text a ta -> num_text b tb -> num_text c tc -> num_text d td -> Forall indexable [(a, b, of_N c); (c, d, of_N c)] ->
    spaces w0 -> spaces w1 -> w1 <> [] -> spaces w2 -> w2 <> [] -> spaces w3 -> w3 <> [] -> spaces w4 ->
    exists A, read_mm_COO scan_g fuel (Some (h ++ w0 ++ ta ++ w1 ++ tb ++ w2 ++ tc ++ w3 ++ td ++ w4)) = Ok (0%Z, Some A) /\
      raw_holds A (Coo (int_to_index nr) (int_to_index nc) (listed <$> [(a, b, of_N c); (d, b, of_N c)])).
  Proof.
    intros Hg Hh Hp Hc Hs HW Ta Tb Tc Td Hi W0 W1 N1 W2 N2 W3 N3 W4. rewrite (read_header scan_g fuel t nr nc 2) by done.
    assert (Hx : mm_is_complex t = false) by (unfold mm_is_complex, mm_is_pattern in *; apply Nat.eqb_eq in Hp; by rewrite Hp).
    rewrite Hx, Hc, Hs. cbn [negb orb mbind outcome_bind]. rewrite (int_to_index_small 2) by lia. change (Z.to_nat 2) with 2.
    apply Forall_cons in Hi as [H1 Hi]. apply Forall_cons in Hi as [H2 _].
    destruct H1 as (A1 & A2 & A3 & A4), H2 as (C1 & C2 & C3 & C4). cbn [fst snd] in *.
    assert (E1 : scan_entry scan_g (w0 ++ ta ++ w1 ++ tb ++ w2 ++ tc ++ w3 ++ td ++ w4) (None, None, None) = Ok (3%Z, (Some a, Some b, Some (of_N c)), td ++ w4)).
    { assert (He : entry_text scan_g (a, b, of_N c) (w0 ++ ta ++ w1 ++ tb ++ w2 ++ tc)) by (exists w0, ta, w1, tb, w2, tc; repeat (split; [done|]); by apply Hg).
      pose proof (scan_entry_ok scan_g (a, b, of_N c) _ (w3 ++ td ++ w4) (None, None, None) He) as Hok. rewrite <- !app_assoc in Hok. cbn [fst snd] in Hok.
      rewrite Hok; [|unfold readable; cbn [fst snd]; lia|by apply spaces_ends]. do 2 f_equal. rewrite skip_spaces_app by done. by destruct (num_text_skip d td w4 Td). }
    assert (E2 : scan_entry scan_g (td ++ w4) (Some a, Some b, Some (of_N c)) = Ok (1%Z, (Some d, Some b, Some (of_N c)), [])).
    { unfold scan_entry. pose proof (scan_lu_num d [] td w4) as Hd. cbn [app] in Hd. rewrite Hd by (first [done|by constructor|lia|by apply spaces_ends0]). cbn [mbind outcome_bind].
      by rewrite (scan_lu_end w4). }
    unfold data_pass.
    assert (P0 : forall (A : Type), new_arr (A := A) 2 = [None; None]) by done.
    assert (Hst1 : data_step scan_g false (None, 0, (new_arr 2, new_arr 2, new_arr 2), (None, None, None), w0 ++ ta ++ w1 ++ tb ++ w2 ++ tc ++ w3 ++ td ++ w4) =
      Ok (None, 1, ([Some (index_of a); None], [Some (index_of b); None], [Some (of_N c); None]), (Some a, Some b, Some (of_N c)), td ++ w4)).
    { unfold data_step. rewrite E1. reflexivity. }
    assert (Hst2 : data_step scan_g false (None, 1, ([Some (index_of a); None], [Some (index_of b); None], [Some (of_N c); None]), (Some a, Some b, Some (of_N c)), td ++ w4) =
      Ok (None, 2, ([Some (index_of a); Some (index_of d)], [Some (index_of b); Some (index_of b)], [Some (of_N c); Some (of_N c)]), (Some d, Some b, Some (of_N c)), [])).
    { unfold data_step. rewrite E2. reflexivity. }
    cbn [while_]. cbn [mbind outcome_bind]. change (0 <? 2) with true. cbn iota. step_by Hst1. cbn [mbind outcome_bind]. change (1 <? 2) with true. cbn iota. step_by Hst2. cbn [mbind outcome_bind]. change (2 <? 2) with false. cbn iota.
    eexists. split; [done|]. unfold raw_holds, c_nnz, listed. cbn. rewrite !index_of_small by lia. done.
  Qed.
End refuted.

(** ** writing and reading back *)
Lemma dec_fuel_length fuel n : length (dec_fuel fuel n) <= fuel.
Proof.
  revert n. induction fuel as [|fuel IH]; intros n; [done|]. cbn [dec_fuel]. rewrite app_length. cbn [length].
  destruct (n <? 10)%N; cbn [length]; [lia|]. specialize (IH (n / 10)%N). lia.
Qed.
Lemma print_dec_length n : (n < 2 ^ 63)%N -> length (print_dec n) <= 65.
Proof.
  intros Hn. unfold print_dec. etransitivity; [apply dec_fuel_length|]. destruct n as [|p]; [cbn; lia|]. cbn [N.size_nat].
  assert (Hp : (p < 2 ^ 63)%positive) by lia. pose proof (Pos.size_nat_monotone _ _ Hp) as Hs. change (Pos.size_nat (2 ^ 63)) with 64 in Hs. lia.
Qed.
Lemma print_int_length z : int_range z -> length (print_int z) <= 66.
Proof.
  intros Hz. unfold int_range, int_max in Hz. unfold print_int. destruct (z <? 0)%Z; cbn [length].
  - pose proof (print_dec_length (Z.to_N (- z))). lia.
  - pose proof (print_dec_length (Z.to_N z)). lia.
Qed.
Lemma int_text_line z t : int_text z t -> Forall (fun c => c <> 10) t.
Proof. intros Ht. destruct (int_text_facts z t Ht) as (_ & _ & Hf). eapply Forall_impl; [exact Hf|]. by intros c (? & _). Qed.

Section roundtrip.
  Context {T : Type} `{Widths} (scan_g : bytes -> option T * bytes) (print_f : T -> bytes).
  Implicit Types B : coo T.
  (** dimensions and number of elements are ints, indices belong to the index type, whose
      values are below 2^64 - 1 *)
  Definition mm_fits B : Prop :=
    (Z.of_nat (c_rows B) <= int_max)%Z /\ (Z.of_nat (c_cols B) <= int_max)%Z /\ (Z.of_nat (c_nnz B) <= int_max)%Z /\
    Forall (fun e => row e < itW /\ col e < itW /\ (N.of_nat (row e) < ulong_max)%N /\ (N.of_nat (col e) < ulong_max)%N) (c_elems B).
  (** the text of value v is read as (reread v) *)
  Definition rereads (reread : T -> T) : Prop := forall v, real_text scan_g (reread v) (print_f v).
  Definition reread_coo (reread : T -> T) B : coo T := Coo (c_rows B) (c_cols B) ((fun e => Elem (row e) (col e) (reread (val e)) (blk e)) <$> c_elems B).

  Lemma to_int_small n : (Z.of_nat n <= int_max)%Z -> to_int n = Z.of_nat n.
  Proof.
    unfold int_max. intros Hn. unfold to_int, int_max. rewrite Z.mod_small by lia. destruct (Z.ltb_spec (2 ^ 31 - 1) (Z.of_nat n)); lia.
  Qed.
  Lemma lines_entries reread (E : list (elem T)) w0 : rereads reread -> spaces w0 ->
    exists rest, spaces rest /\
      entries_text scan_g ((fun e => (N.of_nat (row e) + 1, N.of_nat (col e) + 1, reread (val e))%N) <$> E) (w0 ++ concat (mm_line print_f <$> E)) rest.
  Proof.
    intros Hre. revert w0. induction E as [|e E IH]; intros w0 Hw0; [exists w0; split; [done|]; cbn; rewrite app_nil_r; constructor|].
    destruct (IH [10]) as (rest & Hrest & Hent); [by repeat constructor|]. exists rest. split; [done|]. cbn [fmap list_fmap concat].
    assert (Hx : w0 ++ mm_line print_f e ++ concat (mm_line print_f <$> E) =
      (w0 ++ print_dec (N.of_nat (row e) + 1) ++ [32] ++ print_dec (N.of_nat (col e) + 1) ++ [32] ++ print_f (val e)) ++ ([10] ++ concat (mm_line print_f <$> E))).
    { unfold mm_line. by rewrite <- !app_assoc. }
    unfold list_fmap in Hx. unfold list_fmap. rewrite Hx. constructor; [|done|exact Hent].
    do 6 eexists. split; [reflexivity|]. split; [done|]. split; [by repeat constructor|]. split; [done|]. split; [by repeat constructor|]. split; [done|].
    split; [apply num_text_print|]. split; [apply num_text_print|]. apply Hre.
  Qed.
  (** C63: a written matrix is read back with the same dimensions, indices and order of
      elements; each value becomes what %lg makes of its %f text *)
  Theorem C63_roundtrip fuel reread B : (int_max < Z.of_nat itW)%Z -> mm_fits B -> rereads reread ->
    exists f, write_mm_COO print_f B = Ok f /\ read_mm_COO scan_g fuel (Some f) = Ok (0%Z, Some (raw_of (reread_coo reread B))).
  Proof.
    intros HW (F1 & F2 & F3 & FE) Hre. unfold write_mm_COO. rewrite !to_int_small by done.
    set (t := TypeCode (chr "M") (chr "C") (chr "R") (chr "G")).
    pose (ban := str "%%MatrixMarket matrix coordinate real general").
    assert (exists code, mm_write_banner t = Ok (code, ban ++ [10])) as [code ->] by (eexists; vm_compute; reflexivity). cbn [mbind outcome_bind].
    unfold mm_write_mtx_crd_size.
    pose (a := Z.of_nat (c_rows B)). pose (b := Z.of_nat (c_cols B)). pose (c := Z.of_nat (c_nnz B)). fold a b c.
    assert (Ha : int_range a) by (unfold int_range, int_max in *; lia). assert (Hb : int_range b) by (unfold int_range, int_max in *; lia). assert (Hc : int_range c) by (unfold int_range, int_max in *; lia).
    destruct (lines_entries reread (c_elems B) [] Hre) as (rest & Hrest & Hent); [by constructor|]. cbn [app] in Hent.
    set (body := concat (mm_line print_f <$> c_elems B)) in *.
    assert (Hh : mm_header t a b c (ban ++ [10] ++ concat [] ++ (print_int a ++ [32] ++ print_int b ++ [32] ++ print_int c) ++ [10])).
    { exists ban, [], (print_int a ++ [32] ++ print_int b ++ [32] ++ print_int c). split; [done|].
      split. { exists [], (str "matrix"), (str "coordinate"), (str "real"), (str "general"), []. split; [vm_compute; reflexivity|].
        split; [done|]. split; [reflexivity|]. unfold format_names, field_names, symmetry_names. rewrite !elem_of_cons. split; [by left|]. split; by left. }
      split. { unfold short_words. apply Forall_forall. intros w Hw. change (words ban) with [str "%%MatrixMarket"; str "matrix"; str "coordinate"; str "real"; str "general"] in Hw. cbn [take] in Hw.
        rewrite !elem_of_cons, elem_of_nil in Hw. destruct Hw as [->|[->|[->|[->|[->|[]]]]]]; cbn; lia. }
      split. { apply Forall_forall. intros x Hx. apply elem_of_list_In in Hx. assert (Hall : forallb (fun c => negb (c =? 10) && negb (c =? 0)) ban = true) by (vm_compute; reflexivity).
        rewrite forallb_forall in Hall. apply Hall in Hx. lia. }
      split; [vm_compute; lia|]. split; [constructor|].
      exists [], (print_int a), [32], (print_int b), [32], (print_int c), []. split; [by rewrite app_nil_r|]. repeat (split; [first [by repeat constructor|done|apply int_text_print]|]).
      pose proof (int_text_line _ _ (int_text_print a)). pose proof (int_text_line _ _ (int_text_print b)). pose proof (int_text_line _ _ (int_text_print c)).
      split; [repeat (apply Forall_app; split); try done; by repeat constructor|].
      rewrite !app_length. pose proof (print_int_length a Ha). pose proof (print_int_length b Hb). pose proof (print_int_length c Hc). cbn [length]. lia. }
    eexists. split; [reflexivity|].
    match goal with |- read_mm_COO _ _ (Some ?f) = _ => assert (Hf : f = (ban ++ [10] ++ concat [] ++ (print_int a ++ [32] ++ print_int b ++ [32] ++ print_int c) ++ [10]) ++ body) end.
    { rewrite <- !app_assoc. reflexivity. }
    rewrite Hf. rewrite (read_header scan_g fuel t a b c) by done. change (mm_is_complex t || negb (mm_is_coordinate t)) with false. cbn iota.
    change (mm_is_symmetric t) with false. cbn [mbind outcome_bind]. rewrite !int_to_index_small by lia.
    set (l := (fun e => (N.of_nat (row e) + 1, N.of_nat (col e) + 1, reread (val e))%N) <$> c_elems B) in *.
    assert (Hi : Forall indexable l).
    { subst l. rewrite Forall_fmap. eapply Forall_impl; [exact FE|]. intros e (G1 & G2 & G3 & G4). unfold compose, indexable. cbn [fst snd]. lia. }
    pose proof (stored_listed l Hi) as Hst. assert (Hll : length l = Z.to_nat c) by (subst l c; rewrite fmap_length; unfold c_nnz; lia).
    rewrite (data_pass_spec scan_g false _ l body rest); [|done|by apply readable_indexable|rewrite Hst, fmap_length; lia|rewrite Hst, fmap_length; lia].
    rewrite Hst. cbn [mbind outcome_bind parts]. do 2 f_equal. unfold raw_of, reread_coo. cbn [c_rows c_cols c_elems]. subst a b. rewrite !Nat2Z.id.
    assert (Hrow : row <$> (listed <$> l) = row <$> ((fun e => Elem (row e) (col e) (reread (val e)) (blk e)) <$> c_elems B)).
    { subst l. rewrite <- !list_fmap_compose. apply list_fmap_ext. intros i e _. cbn. lia. }
    assert (Hcol : col <$> (listed <$> l) = col <$> ((fun e => Elem (row e) (col e) (reread (val e)) (blk e)) <$> c_elems B)).
    { subst l. rewrite <- !list_fmap_compose. apply list_fmap_ext. intros i e _. cbn. lia. }
    assert (Hval : val <$> (listed <$> l) = val <$> ((fun e => Elem (row e) (col e) (reread (val e)) (blk e)) <$> c_elems B)).
    { subst l. rewrite <- !list_fmap_compose. apply list_fmap_ext. intros i e _. done. }
    rewrite Hrow, Hcol, Hval. rewrite <- Hll. unfold c_nnz. cbn [c_elems]. rewrite !fmap_length.
    assert (Hlen : length l = length (c_elems B)) by (subst l; by rewrite fmap_length). rewrite Hlen. f_equal.
    rewrite <- (part_full (row <$> _)), <- (part_full (col <$> _)), <- (part_full (val <$> _)). by rewrite !fmap_length.
  Qed.
  (** C63: if %f prints two values alike, no reader tells the files of matrices apart that
      differ in such values only: one of two such matrices is lost *)
  Theorem C63_lossy_refuted v v' r c e es nr nc : print_f v = print_f v' -> v <> v' ->
    write_mm_COO print_f (Coo nr nc (Elem r c v e :: es)) = write_mm_COO print_f (Coo nr nc (Elem r c v' e :: es)) /\
    raw_of (Coo nr nc (Elem r c v e :: es)) <> raw_of (Coo nr nc (Elem r c v' e :: es)).
  Proof.
    intros Hp Hne. split.
    - unfold write_mm_COO. cbn [c_rows c_cols c_elems]. change (c_nnz (Coo nr nc (Elem r c v e :: es))) with (S (length es)). change (c_nnz (Coo nr nc (Elem r c v' e :: es))) with (S (length es)).
      cbn [fmap list_fmap concat]. unfold mm_line at 1 3. cbn [row col val]. by rewrite Hp.
    - unfold raw_of. cbn. by intros [= E].
  Qed.
End roundtrip.

(** ** the codes of the header writers *)
(** C64: both functions write the right text and return 17 (could not write file) *)
Theorem C64_banner_refuted t : named t -> exists text, mm_write_banner t = Ok (17%Z, text) /\ forall rest, mm_read_banner (text ++ rest) = Ok (0%Z, t, rest).
Proof.
  intros Ht. destruct (C59_roundtrip t Ht) as (names & code & Hw & Hr).
  assert (Hlow : forall names, (exists code, mm_write_banner t = Ok (code, str "%%MatrixMarket" ++ names ++ [10])) -> lower names = names).
  { clear -Ht. destruct t as [to tf td ts]. destruct Ht as (Ho & Hf & Hd & Hs). cbn [t_object t_format t_field t_symmetry] in *. subst to.
    unfold format_names, field_names, symmetry_names in *. cbn [fmap list_fmap fst] in *. rewrite !elem_of_cons, !elem_of_nil in *.
    destruct Hf as [->|[->|[]]]; destruct Hd as [->|[->|[->|[->|[]]]]]; destruct Hs as [->|[->|[->|[->|[]]]]]; intros names [code Hw];
      match type of Hw with mm_write_banner ?t = _ => let r := eval vm_compute in (mm_write_banner t) in
        match r with Ok (_, ?x) => let y := eval vm_compute in (take (length x - 15) (drop 14 x)) in
          assert (Hn : names = y); [|by rewrite Hn] end end;
      vm_compute in Hw; injection Hw as _ Hw; apply (app_inv_tail [10]); symmetry; exact Hw. }
  exists (str "%%MatrixMarket" ++ names ++ [10]). split.
  - unfold mm_write_banner in *. destruct (mm_typecode_to_str t) as [[s|]| | |]; try done. cbn [mbind outcome_bind] in *. pose proof (f_equal (fun o => match o with Ok (_, x) => x | _ => [] end) Hw) as Htext. cbn beta iota zeta in Htext. rewrite Htext.
    rewrite (proj2 (Z.eqb_neq _ 2)); [done|]. rewrite !app_length. change (length (str "%%MatrixMarket")) with 14. lia.
  - intros rest. rewrite <- !app_assoc. apply Hr. apply Hlow. by exists code.
Qed.
Theorem C64_size_refuted fuel a b c : int_range a -> int_range b -> int_range c ->
  exists text, mm_write_mtx_crd_size a b c = (17%Z, text) /\ forall rest, mm_read_mtx_crd_size fuel (text ++ rest) = Ok (0%Z, (a, b, c), rest).
Proof.
  intros Ha Hb Hc. unfold mm_write_mtx_crd_size. eexists. split.
  - rewrite (proj2 (Z.eqb_neq _ 3)); [done|]. destruct (int_text_facts a _ (int_text_print a)) as (_ & Na & _), (int_text_facts b _ (int_text_print b)) as (_ & Nb & _).
    destruct (print_int a); [done|]. destruct (print_int b); [done|]. rewrite !app_length. cbn [length]. lia.
  - intros rest. pose proof (C61_size fuel [] a b c (print_int a ++ [32] ++ print_int b ++ [32] ++ print_int c) rest) as Hs. cbn [concat] in Hs. rewrite app_nil_l in Hs.
    rewrite <- !app_assoc in *. apply Hs; [constructor|].
    exists [], (print_int a), [32], (print_int b), [32], (print_int c), []. split; [by rewrite app_nil_r|]. repeat (split; [first [by repeat constructor|done|apply int_text_print]|]).
    pose proof (int_text_line _ _ (int_text_print a)). pose proof (int_text_line _ _ (int_text_print b)). pose proof (int_text_line _ _ (int_text_print c)).
    split; [repeat (apply Forall_app; split); try done; by repeat constructor|].
    rewrite !app_length. pose proof (print_int_length a Ha). pose proof (print_int_length b Hb). pose proof (print_int_length c Hc). cbn [length]. lia.
Qed.

(** ** choice of the reader *)
(** C65: string_ends_with decides whether the second string is a suffix of the first *)
Theorem C65_suffix s e : string_ends_with s e = true <-> exists p, s = p ++ e.
Proof.
  unfold string_ends_with. rewrite andb_true_iff, Nat.leb_le, str_eqb_spec. split.
  - intros [Hl Hd]. exists (take (length s - length e) s). by rewrite <- Hd at 2; rewrite take_drop.
  - intros [p ->]. rewrite app_length. split; [lia|]. replace (length p + length e - length e) with (length p) by lia. apply drop_app.
Qed.
(** C65: a name ending in .bin is read by the binary reader, one ending in .mtx by the text
    reader, any other gives -1 and reads nothing *)
Theorem C65_dispatch {R} name (bin mm : outcome (Z * R)) none :
  ((exists p, name = p ++ str ".bin") -> read_COO name bin mm none = bin) /\
  ((exists p, name = p ++ str ".mtx") -> read_COO name bin mm none = mm) /\
  ((~ exists p, name = p ++ str ".bin") -> (~ exists p, name = p ++ str ".mtx") -> read_COO name bin mm none = Ok ((-1)%Z, none)).
Proof.
  unfold read_COO. split; [|split].
  - intros Hb. apply C65_suffix in Hb. by rewrite Hb.
  - intros Hm. destruct (string_ends_with name (str ".bin")) eqn:Eb.
    + apply C65_suffix in Eb as [p Hp]. destruct Hm as [q Hq]. rewrite Hp in Hq. apply app_inj_2 in Hq as [_ Hq]; [|done]. done.
    + apply C65_suffix in Hm. by rewrite Hm.
  - intros Hb Hm. destruct (string_ends_with name (str ".bin")) eqn:Eb; [by apply C65_suffix in Eb|].
    destruct (string_ends_with name (str ".mtx")) eqn:Em; [by apply C65_suffix in Em|]. done.
Qed.

(** ** examples: values are integers; %lg replaced by reading an integer, %f by printing an
    integer without its last digit *)
Definition toy_scan (s : bytes) : option Z * bytes :=
  match scan_digits s with (Some (neg, n), r) => (Some (if neg then (- Z.of_N n)%Z else Z.of_N n), r) | (None, r) => (None, r) end.
Definition toy_print (z : Z) : bytes := print_int (z / 10).
Lemma toy_real z t : int_text z t -> real_text toy_scan z t \/ exists d, t = 43 :: d.
Proof.
  intros (d & Hd & Hne & [[-> ->]|[[-> ->]|[-> ->]]]).
  - left. split.
    + destruct d as [|c d]; [done|]. apply Forall_cons in Hd as [Hc _]. by apply digit_not_space.
    + intros s Hs. unfold toy_scan. by rewrite scan_digits_ok.
  - right. by eexists.
  - left. split; [done|]. intros s Hs. unfold toy_scan. cbn [app]. by rewrite scan_digits_neg.
Qed.
Lemma toy_rereads : rereads toy_scan toy_print (fun z => z / 10)%Z.
Proof.
  intros z. unfold toy_print. destruct (toy_real (z / 10) (print_int (z / 10)) (int_text_print _)) as [Hr|[d Hd]]; [done|].
  exfalso. unfold print_int in Hd. destruct (_ <? 0)%Z; [done|]. destruct (print_dec_spec (Z.to_N (z / 10))) as (Hdig & _ & _). rewrite Hd in Hdig. apply Forall_cons in Hdig as [Hx _]. done.
Qed.
Local Instance ex_W32 : Widths := {| itW := 2 ^ 31 + 2 ^ 31; sitW := 256 |}.
Lemma ex_W32_int : (int_max < Z.of_nat itW)%Z.
Proof. unfold int_max, itW, ex_W32. rewrite Nat2Z.inj_add, Nat2Z.inj_pow. lia. Qed.
Definition ex_mm : coo Z := Coo 3 4 [Elem 0 1 57%Z 0; Elem 2 3 (-12)%Z 0; Elem 2 0 0%Z 0].
Lemma ex_mm_fits : mm_fits ex_mm.
Proof.
  pose proof ex_W32_int as HW. unfold int_max in HW. split; [cbn; unfold int_max; lia|]. split; [cbn; unfold int_max; lia|]. split; [cbn; unfold int_max; lia|].
  assert (HW2 : 10 < itW) by lia. unfold ulong_max. generalize dependent (itW (Widths := ex_W32)). intros n _ Hn. repeat constructor; cbn [row col]; lia.
Qed.
Example C63_ex : exists f, write_mm_COO toy_print ex_mm = Ok f /\ read_mm_COO toy_scan 0 (Some f) = Ok (0%Z, Some (raw_of (reread_coo (fun z => z / 10)%Z ex_mm))).
Proof. apply C63_roundtrip; [apply ex_W32_int|apply ex_mm_fits|apply toy_rereads]. Qed.
Definition nl : bytes := [10].
Definition ex_sym : bytes := str "%%MatrixMarket matrix coordinate real symmetric" ++ nl ++ str "% comment" ++ nl ++ str "3 3 3" ++ nl.
Definition ex_body : bytes := str "1 1 5" ++ nl ++ str "3 1 -7" ++ nl ++ str "3 2 9" ++ nl.
Lemma ex_sym_header : mm_header (TypeCode (chr "M") (chr "C") (chr "R") (chr "S")) 3 3 3 ex_sym.
Proof.
  exists (str "%%MatrixMarket matrix coordinate real symmetric"), [str "% comment" ++ nl], (str "3 3 3"). split; [done|]. split.
  { exists [], (str "matrix"), (str "coordinate"), (str "real"), (str "symmetric"), []. split; [vm_compute; reflexivity|]. split; [done|]. split; [reflexivity|].
    unfold format_names, field_names, symmetry_names. rewrite !elem_of_cons. auto 10. }
  split; [vm_compute; repeat constructor|]. split; [vm_compute; repeat constructor; done|]. split; [vm_compute; lia|]. split.
  { constructor; [|constructor]. exists (str " comment"). split; [done|]. split; [vm_compute; repeat constructor; done|vm_compute; lia]. }
  assert (Hit : int_text 3 (str "3")) by (exists (str "3"); split; [by repeat constructor|]; split; [done|]; by left).
  exists [], (str "3"), [32], (str "3"), [32], (str "3"), []. split; [done|]. repeat (split; [first [exact Hit|by repeat constructor|done|unfold int_range, int_max; lia]|]).
  cbn. lia.
Qed.
Lemma ex_body_entries : entries_text toy_scan [(1, 1, 5%Z); (3, 1, (-7)%Z); (3, 2, 9%Z)]%N ex_body nl.
Proof.
  assert (Hn : forall n (t : bytes), forallb is_digit t = true -> t <> [] -> dec_val t = n -> num_text n t).
  { intros n t Hd Hne Hv. split; [|done]. apply Forall_forall. intros c Hc. rewrite forallb_forall in Hd. apply Hd. by apply elem_of_list_In. }
  assert (He : forall w0 r c v tr tc tv, spaces w0 -> num_text r tr -> num_text c tc -> real_text toy_scan v tv -> entry_text toy_scan (r, c, v) (w0 ++ tr ++ [32] ++ tc ++ [32] ++ tv)).
  { intros w0 r c v tr tc tv H1 H2 H3 H4. exists w0, tr, [32], tc, [32], tv. repeat (split; [first [done|by repeat constructor]|]). done. }
  assert (Hr : forall z t, int_text z t -> match t with c :: _ => c <> 43 | [] => True end -> real_text toy_scan z t).
  { intros z t Ht Hc. destruct (toy_real z t Ht) as [?|[d ->]]; [done|]. done. }
  apply (entries_cons _ _ _ (str "1 1 5") (nl ++ str "3 1 -7" ++ nl ++ str "3 2 9" ++ nl)); [|done|].
  { apply (He [] _ _ _ (str "1") (str "1") (str "5")); [by constructor|by apply Hn|by apply Hn|]. apply Hr; [|done]. exists (str "5"). split; [by repeat constructor|]. split; [done|]. by left. }
  apply (entries_cons _ _ _ (nl ++ str "3 1 -7") (nl ++ str "3 2 9" ++ nl)); [|done|].
  { apply (He nl _ _ _ (str "3") (str "1") (str "-7")); [by repeat constructor|by apply Hn|by apply Hn|]. apply Hr; [|done]. exists (str "7"). split; [by repeat constructor|]. split; [done|]. by right; right. }
  apply (entries_cons _ _ _ (nl ++ str "3 2 9") nl); [|done|constructor].
  { apply (He nl _ _ _ (str "3") (str "2") (str "9")); [by repeat constructor|by apply Hn|by apply Hn|]. apply Hr; [|done]. exists (str "9"). split; [by repeat constructor|]. split; [done|]. by left. }
Qed.
Example C62_ex fuel : exists A, read_mm_COO toy_scan fuel (Some (ex_sym ++ ex_body)) = Ok (0%Z, Some A) /\
  raw_holds A (Coo 3 3 [Elem 0 0 5%Z 0; Elem 2 0 (-7)%Z 0; Elem 0 2 (-7)%Z 0; Elem 2 1 9%Z 0; Elem 1 2 9%Z 0]).
Proof.
  pose proof ex_W32_int as HW. apply (C62_symmetric toy_scan fuel (TypeCode (chr "M") (chr "C") (chr "R") (chr "S")) 3 3 3 ex_sym [(1, 1, 5%Z); (3, 1, (-7)%Z); (3, 2, 9%Z)]%N ex_body nl).
  - exact ex_sym_header. - done. - done. - done. - exact HW. - done. - done. - unfold int_max. lia. - exact ex_body_entries.
  - unfold int_max in HW. unfold indexable, ulong_max. generalize dependent (itW (Widths := ex_W32)). intros n Hn. repeat constructor; cbn [fst snd]; lia.
  - by repeat constructor. - cbn; lia. - vm_compute; congruence.
Qed.
Example C65_ex : string_ends_with (str "dir/a.mtx.bin") (str ".bin") = true /\ string_ends_with (str "bin") (str ".bin") = false.
Proof. done. Qed.
