(** Properties_Mm3.v: C102, Matrix Market files whose body is not the announced list of
    complete entries (include/io/input.h:87-123): files broken off inside an entry, files with
    a word that is no number, files without values.  All are read with code 0.

    The texts: [entries_text scan_g l f t] (Mm2Proof.v): f is the complete entries l and then
    t; [broken_text p e t] (Mm3Proof.v): t is a row number, or a row and a column number, and
    nothing else, and e is the entry with these numbers and the rest taken from p;
    [stuck t]: after white space, t goes on with a character that no number begins with. *)
From Verif Require Import Properties_Mm Properties_Mm2.
From Verif Require Export Mm3Proof.
From Coq Require Import ZifyNat ZifyBool ZifyN.

(** the entries made of the numbers ns three by three; missing ones are taken from the entry
    before *)
Fixpoint threes {T} (of_N : N -> T) (p : N * N * T) (ns : list N) : list (N * N * T) :=
  match ns with
  | [] => []
  | [a] => [(a, p.1.2, p.2)]
  | [a; b] => [(a, b, p.2)]
  | a :: b :: c :: ns => (a, b, of_N c) :: threes of_N (a, b, of_N c) ns
  end.
(** f is the numbers ns in decimal, with white space between them (and before and after) *)
Inductive numbers_text : list N -> bytes -> Prop :=
| numbers_nil w : spaces w -> numbers_text [] w
| numbers_one w n t w' : spaces w -> num_text n t -> spaces w' -> numbers_text [n] (w ++ t ++ w')
| numbers_cons w n t m ns f : spaces w -> num_text n t -> ends f -> numbers_text (m :: ns) f -> numbers_text (n :: m :: ns) (w ++ t ++ f).

Section files.
  Context {T : Type} `{Widths} (scan_g : bytes -> option T * bytes).
  Implicit Types l : list (N * N * T).

  (** C102: a file that is not symmetric and breaks off inside an entry after at least one
      complete entry: the broken entry is kept, with the value (and the column) of the entry
      before it *)
  Theorem C102_cut_general fuel t nr nc nnz h l p e f b : mm_header t nr nc nnz h -> mm_is_complex t = false -> mm_is_coordinate t = true -> mm_is_symmetric t = false ->
    (0 <= nr < Z.of_nat itW)%Z -> (0 <= nc < Z.of_nat itW)%Z -> (0 <= nnz < Z.of_nat itW)%Z ->
    entries_text scan_g l f b -> last l = Some p -> broken_text p e b -> Forall indexable (l ++ [e]) -> length l < Z.to_nat nnz ->
    exists A, read_mm_COO scan_g fuel (Some (h ++ f)) = Ok (0%Z, Some A) /\ raw_holds A (Coo (Z.to_nat nr) (Z.to_nat nc) (listed <$> (l ++ [e]))).
  Proof.
    intros Hh Hx Hc Hs Hr1 Hr2 Hr3 He Hp Hb Hi Hlt. rewrite (Properties_Mm2.read_header scan_g fuel t nr nc nnz) by done. rewrite Hx, Hc, Hs. cbn [negb orb mbind outcome_bind].
    rewrite !int_to_index_small by done. pose proof (stored_listed _ Hi) as Hst.
    assert (Hl : length (l ++ [e]) <= Z.to_nat nnz) by (rewrite app_length; cbn [length]; lia).
    rewrite (data_pass_broken scan_g false _ l p e f b); [|done|by apply readable_indexable|done|done|by rewrite Hst, fmap_length].
    rewrite Hst. cbn [mbind outcome_bind parts]. eexists. split; [done|]. apply raw_holds_parts. by rewrite fmap_length.
  Qed.
  (** C102: a symmetric file that breaks off inside an entry *)
  Theorem C102_cut_symmetric fuel t nr nc nnz h l p e f b : mm_header t nr nc nnz h -> mm_is_complex t = false -> mm_is_coordinate t = true -> mm_is_symmetric t = true ->
    (int_max < Z.of_nat itW)%Z -> (0 <= nr)%Z -> (0 <= nc)%Z -> (0 <= 2 * nnz <= int_max)%Z ->
    entries_text scan_g l f b -> last l = Some p -> broken_text p e b -> Forall indexable (l ++ [e]) -> length l < Z.to_nat (2 * nnz) ->
    (Z.of_nat (length (flat_map mirrored (l ++ [e]))) <= int_max)%Z ->
    exists A, read_mm_COO scan_g fuel (Some (h ++ f)) = Ok (0%Z, Some A) /\ raw_holds A (Coo (Z.to_nat nr) (Z.to_nat nc) (flat_map mirrored (l ++ [e]))).
  Proof.
    intros Hh Hx Hc Hs Hw Hr1 Hr2 Hr3 He Hp Hb Hi Hlt Htot. rewrite (Properties_Mm2.read_header scan_g fuel t nr nc nnz) by done. rewrite Hx, Hc, Hs. cbn [negb orb].
    assert (Hdims : int_range nr /\ int_range nc) by (destruct Hh as (? & ? & ? & _ & _ & _ & _ & _ & _ & (? & ? & ? & ? & ? & ? & ? & Hsl)); tauto).
    destruct Hdims as [Hd1 Hd2]. unfold int_range in *.
    pose proof (stored_mirrored _ Hi) as Hst.
    destruct (count_pass_broken scan_g nnz l p e f b) as [v ->]; [done|by apply readable_indexable|done|done|lia|lia|apply int_to_index_small; lia|rewrite app_length; cbn [length]; lia|].
    cbn [mbind outcome_bind]. rewrite sum_count_length, Hst, nat_N_Z. rewrite (proj2 (Z.ltb_ge _ _)) by lia. cbn [mbind outcome_bind].
    rewrite (int_to_index_small nr), (int_to_index_small nc), (int_to_index_small (Z.of_nat _)), Nat2Z.id by lia.
    rewrite (data_pass_broken scan_g true _ l p e f b); [|done|by apply readable_indexable|done|done|by rewrite Hst].
    rewrite Hst. cbn [mbind outcome_bind parts]. eexists. split; [done|]. by apply raw_holds_parts.
  Qed.
  (** C102: if the very first entry is broken off, variables that were never assigned are used *)
  Theorem C102_cut_first_refuted fuel t nr nc nnz h w0 r tr w f : mm_header t nr nc nnz h -> mm_is_complex t = false -> mm_is_coordinate t = true -> mm_is_symmetric t = false ->
    (0 < nnz < Z.of_nat itW)%Z -> spaces w0 -> num_text r tr -> (r <= ulong_max)%N -> spaces w ->
    (f = w0 ++ tr ++ w \/ exists w1 c tc, spaces w1 /\ w1 <> [] /\ num_text c tc /\ (c <= ulong_max)%N /\ f = w0 ++ tr ++ w1 ++ tc ++ w) ->
    read_mm_COO scan_g fuel (Some (h ++ f)) = Undef Uninit.
  Proof.
    intros Hh Hx Hc Hs Hn W0 Tr Hr W Hf. rewrite (Properties_Mm2.read_header scan_g fuel t nr nc nnz) by done. rewrite Hx, Hc, Hs. cbn [negb orb mbind outcome_bind].
    rewrite (int_to_index_small nnz) by lia. unfold data_pass. destruct (Z.to_nat nnz) as [|n] eqn:En; [lia|]. cbn [while_ mbind outcome_bind].
    rewrite (proj2 (Nat.ltb_lt 0 (S n))) by lia.
    assert (Hstep : forall A, data_step scan_g false (None, 0, A, (None, None, None), f) = Undef Uninit); [|by rewrite Hstep].
    intros [[ri ci] vs]. unfold data_step, scan_entry.
    destruct Hf as [->|(w1 & c & tc & W1 & N1 & Tc & Hc1 & ->)].
    - rewrite (scan_lu_num r) by (try done; by apply spaces_ends0). cbn [mbind outcome_bind]. by rewrite (scan_lu_end w).
    - rewrite (scan_lu_num r) by (try done; by apply spaces_ends). cbn [mbind outcome_bind].
      rewrite (scan_lu_num c) by (try done; by apply spaces_ends0). cbn [mbind outcome_bind]. by rewrite skip_space_nil.
  Qed.

  (** C102: a word that is no number among the entries of a file that is not symmetric: the
      entry before it is repeated until the announced number of entries is reached; nothing
      after the word is read *)
  Theorem C102_word_general fuel t nr nc nnz h l p f b : mm_header t nr nc nnz h -> mm_is_complex t = false -> mm_is_coordinate t = true -> mm_is_symmetric t = false ->
    (0 <= nr < Z.of_nat itW)%Z -> (0 <= nc < Z.of_nat itW)%Z -> (0 <= nnz < Z.of_nat itW)%Z ->
    entries_text scan_g l f b -> last l = Some p -> stuck b -> Forall indexable l -> length l <= Z.to_nat nnz ->
    exists A, read_mm_COO scan_g fuel (Some (h ++ f)) = Ok (0%Z, Some A) /\
      raw_holds A (Coo (Z.to_nat nr) (Z.to_nat nc) (listed <$> (l ++ replicate (Z.to_nat nnz - length l) p))).
  Proof.
    intros Hh Hx Hc Hs Hr1 Hr2 Hr3 He Hp Hb Hi Hlt. rewrite (Properties_Mm2.read_header scan_g fuel t nr nc nnz) by done. rewrite Hx, Hc, Hs. cbn [negb orb mbind outcome_bind].
    rewrite !int_to_index_small by done.
    assert (Hall : Forall indexable (l ++ replicate (Z.to_nat nnz - length l) p)).
    { apply Forall_app. split; [done|]. apply Forall_replicate. apply last_Some in Hp as [l' ->]. apply Forall_app in Hi as [_ Hi]. by apply Forall_cons in Hi as [? _]. }
    pose proof (stored_listed _ Hall) as Hst.
    assert (Hl : length (l ++ replicate (Z.to_nat nnz - length l) p) = Z.to_nat nnz) by (rewrite app_length, replicate_length; lia).
    rewrite (data_pass_stuck scan_g false _ l p (Z.to_nat nnz - length l) f b); [|done|by apply readable_indexable|done|done|by rewrite Hst, fmap_length].
    rewrite Hst. cbn [mbind outcome_bind parts]. eexists. split; [done|].
    rewrite <- Hl at 1. rewrite <- (fmap_length listed (l ++ _)) at 1. apply raw_holds_parts. by rewrite fmap_length, Hl.
  Qed.
  (** C102: ... of a symmetric file: until twice the announced number of entries is reached *)
  Theorem C102_word_symmetric fuel t nr nc nnz h l p f b : mm_header t nr nc nnz h -> mm_is_complex t = false -> mm_is_coordinate t = true -> mm_is_symmetric t = true ->
    (int_max < Z.of_nat itW)%Z -> (0 <= nr)%Z -> (0 <= nc)%Z -> (0 <= 2 * nnz <= int_max)%Z ->
    entries_text scan_g l f b -> last l = Some p -> stuck b -> Forall indexable l -> length l <= Z.to_nat (2 * nnz) ->
    (Z.of_nat (length (flat_map mirrored (l ++ replicate (Z.to_nat (2 * nnz) - length l) p))) <= int_max)%Z ->
    exists A, read_mm_COO scan_g fuel (Some (h ++ f)) = Ok (0%Z, Some A) /\
      raw_holds A (Coo (Z.to_nat nr) (Z.to_nat nc) (flat_map mirrored (l ++ replicate (Z.to_nat (2 * nnz) - length l) p))).
  Proof.
    intros Hh Hx Hc Hs Hw Hr1 Hr2 Hr3 He Hp Hb Hi Hlt Htot. rewrite (Properties_Mm2.read_header scan_g fuel t nr nc nnz) by done. rewrite Hx, Hc, Hs. cbn [negb orb].
    assert (Hdims : int_range nr /\ int_range nc) by (destruct Hh as (? & ? & ? & _ & _ & _ & _ & _ & _ & (? & ? & ? & ? & ? & ? & ? & Hsl)); tauto).
    destruct Hdims as [Hd1 Hd2]. unfold int_range in *.
    assert (Hall : Forall indexable (l ++ replicate (Z.to_nat (2 * nnz) - length l) p)).
    { apply Forall_app. split; [done|]. apply Forall_replicate. apply last_Some in Hp as [l' ->]. apply Forall_app in Hi as [_ Hi]. by apply Forall_cons in Hi as [? _]. }
    pose proof (stored_mirrored _ Hall) as Hst.
    destruct (count_pass_stuck scan_g nnz l p f b) as [v ->]; [done|by apply readable_indexable|done|done|lia|lia|apply int_to_index_small; lia|done|].
    cbn [mbind outcome_bind]. rewrite sum_count_length, Hst, nat_N_Z. rewrite (proj2 (Z.ltb_ge _ _)) by lia. cbn [mbind outcome_bind].
    rewrite (int_to_index_small nr), (int_to_index_small nc), (int_to_index_small (Z.of_nat _)), Nat2Z.id by lia.
    rewrite (data_pass_stuck scan_g true _ l p (Z.to_nat (2 * nnz) - length l) f b); [|done|by apply readable_indexable|done|done|by rewrite Hst].
    rewrite Hst. cbn [mbind outcome_bind parts]. eexists. split; [done|]. by apply raw_holds_parts.
  Qed.

  (** ** files of whole numbers *)
  Lemma ends_numbers n ns f : numbers_text (n :: ns) f -> exists w t f', f = w ++ t ++ f' /\ spaces w /\ num_text n t /\ ends f' /\ numbers_text ns f'.
  Proof.
    intros Hn. inversion Hn as [|w n' t w' W Ht W'|w n' t m ns' f' W Ht Hf' Hns]; subst.
    - exists w, t, w'. repeat (split; [first [done|by apply spaces_ends0]|]). by constructor.
    - exists w, t, f'. repeat (split; [done|]). done.
  Qed.
  Lemma numbers_spaces f : numbers_text [] f -> spaces f.
  Proof. by inversion 1. Qed.
  Lemma numbers_lead n ns f : numbers_text (n :: ns) f -> ends f -> exists w t f', f = w ++ t ++ f' /\ spaces w /\ w <> [] /\ num_text n t /\ ends f' /\ numbers_text ns f'.
  Proof.
    intros Hn Hf. destruct (ends_numbers n ns f Hn) as (w & t & f' & -> & W & Ht & Hf' & Hns). exists w, t, f'. repeat (split; [done|]).
    split; [|done]. intros ->. destruct Ht as (Hd & Hne & _). destruct t as [|c t]; [done|]. apply Forall_cons in Hd as [Hc _]. cbn in Hf. rewrite (digit_not_space c Hc) in Hf. done.
  Qed.
  (** the file as complete entries and a broken one *)
  Lemma numbers_entries (of_N : N -> T) : (forall n t, num_text n t -> real_text scan_g (of_N n) t) ->
    forall k ns f, length ns <= k -> 3 <= length ns -> numbers_text ns f -> forall q, exists l p b, entries_text scan_g l f b /\ last l = Some p /\
      ((spaces b /\ threes of_N q ns = l) \/ (exists e, broken_text p e b /\ threes of_N q ns = l ++ [e])).
  Proof.
    intros Hg. induction k as [|k IH]; intros ns f Hk H3 Hf q; [lia|].
    destruct ns as [|n1 [|n2 [|n3 ns]]]; cbn [length] in H3; [lia..|].
    destruct (ends_numbers _ _ _ Hf) as (w0 & t1 & f1 & -> & W0 & T1 & E1 & Hf1).
    destruct (numbers_lead _ _ _ Hf1 E1) as (w1 & t2 & f2 & -> & W1 & N1 & T2 & E2 & Hf2).
    destruct (numbers_lead _ _ _ Hf2 E2) as (w2 & t3 & f3 & -> & W2 & N2 & T3 & E3 & Hf3).
    assert (He : entry_text scan_g (n1, n2, of_N n3) (w0 ++ t1 ++ w1 ++ t2 ++ w2 ++ t3)) by (exists w0, t1, w1, t2, w2, t3; repeat (split; [done|]); by apply Hg).
    assert (Hx : w0 ++ t1 ++ w1 ++ t2 ++ w2 ++ t3 ++ f3 = (w0 ++ t1 ++ w1 ++ t2 ++ w2 ++ t3) ++ f3) by (by rewrite <- !app_assoc).
    rewrite Hx. clear Hx. destruct ns as [|m1 [|m2 [|m3 ns]]].
    - exists [(n1, n2, of_N n3)], (n1, n2, of_N n3), f3. split; [constructor; [done|done|constructor]|]. split; [done|]. left. split; [by apply numbers_spaces|done].
    - exists [(n1, n2, of_N n3)], (n1, n2, of_N n3), f3. split; [constructor; [done|done|constructor]|]. split; [done|]. right. exists (m1, n2, of_N n3). split; [|done].
      destruct (numbers_lead _ _ _ Hf3 E3) as (w & t & f4 & -> & W & _ & Tm & E4 & Hf4). apply numbers_spaces in Hf4.
      exists w, m1, t, f4. split; [done|]. split; [done|]. split; [done|]. by left.
    - exists [(n1, n2, of_N n3)], (n1, n2, of_N n3), f3. split; [constructor; [done|done|constructor]|]. split; [done|]. right. exists (m1, m2, of_N n3). split; [|done].
      destruct (numbers_lead _ _ _ Hf3 E3) as (w & t & f4 & -> & W & _ & Tm & E4 & Hf4).
      destruct (numbers_lead _ _ _ Hf4 E4) as (w' & t' & f5 & -> & W' & N' & Tm' & E5 & Hf5). apply numbers_spaces in Hf5.
      exists w, m1, t, f5. split; [done|]. split; [done|]. split; [done|]. right. exists w', m2, t'. done.
    - destruct (IH (m1 :: m2 :: m3 :: ns) f3) with (q := (n1, n2, of_N n3)) as (l & p & b & G1 & G2 & G3); [cbn [length] in *; lia|cbn [length]; lia|done|].
      exists ((n1, n2, of_N n3) :: l), p, b. split; [by constructor|]. split.
      { destruct l as [|z l]; [done|]. by rewrite last_cons_cons. }
      change (threes of_N q (n1 :: n2 :: n3 :: m1 :: m2 :: m3 :: ns)) with ((n1, n2, of_N n3) :: threes of_N (n1, n2, of_N n3) (m1 :: m2 :: m3 :: ns)).
      destruct G3 as [[Hb ->]|(e & Hb & ->)]; [by left|]. right. by exists e.
  Qed.
  (** the number of entries made of ns *)
  Lemma threes_length (of_N : N -> T) k : forall ns p, length ns <= k -> length ns <= 3 * length (threes of_N p ns) < length ns + 3.
  Proof.
    induction k as [|k IH]; intros ns p Hk; [destruct ns; [cbn; lia|cbn [length] in Hk; lia]|].
    destruct ns as [|n1 [|n2 [|n3 ns]]]; cbn [length threes] in *; [lia..|]. specialize (IH ns (n1, n2, of_N n3)). lia.
  Qed.
  (** C102: whatever its header says of the values: a file, not symmetric, of at least three whole
      numbers is read by taking the numbers in threes, wherever the lines end *)
  Theorem C102_threes (of_N : N -> T) fuel t nr nc nnz h ns f q : (forall n t, num_text n t -> real_text scan_g (of_N n) t) ->
    mm_header t nr nc nnz h -> mm_is_complex t = false -> mm_is_coordinate t = true -> mm_is_symmetric t = false ->
    (0 <= nr < Z.of_nat itW)%Z -> (0 <= nc < Z.of_nat itW)%Z -> (0 <= nnz < Z.of_nat itW)%Z ->
    numbers_text ns f -> 3 <= length ns <= 3 * Z.to_nat nnz -> Forall indexable (threes of_N q ns) ->
    exists A, read_mm_COO scan_g fuel (Some (h ++ f)) = Ok (0%Z, Some A) /\ raw_holds A (Coo (Z.to_nat nr) (Z.to_nat nc) (listed <$> threes of_N q ns)).
  Proof.
    intros Hg Hh Hx Hc Hs Hr1 Hr2 Hr3 Hf Hn Hi. pose proof (threes_length of_N (length ns) ns q (le_n _)) as Hlen.
    destruct (numbers_entries of_N Hg (length ns) ns f) with (q := q) as (l & p & b & G1 & G2 & [[Hb Hq]|(e & Hb & Hq)]); [done|lia|done| |]; rewrite Hq in *.
    - apply (C62_general scan_g fuel t nr nc nnz h l f b); try done. lia.
    - rewrite app_length in Hlen. cbn [length] in Hlen. eapply (C102_cut_general fuel t nr nc nnz h l p e f b); try done. lia.
  Qed.
  (** C102: so a file of type pattern, whose n >= 2 entries are two numbers each, gives a matrix
      of two thirds as many elements (rounded up) at other places *)
  Theorem C102_pattern_refuted (of_N : N -> T) fuel t nr nc h (places : list (N * N)) f : (forall n t, num_text n t -> real_text scan_g (of_N n) t) ->
    mm_header t nr nc (Z.of_nat (length places)) h -> mm_is_pattern t = true -> mm_is_coordinate t = true -> mm_is_symmetric t = false ->
    (0 <= nr < Z.of_nat itW)%Z -> (0 <= nc < Z.of_nat itW)%Z -> 2 <= length places < itW ->
    let ns := flat_map (fun p => [p.1; p.2]) places in
    numbers_text ns f -> Forall (fun n => 1 <= n <= N.of_nat itW /\ n <= ulong_max)%N ns ->
    exists A B, read_mm_COO scan_g fuel (Some (h ++ f)) = Ok (0%Z, Some A) /\ raw_holds A B /\
      c_elems B = listed <$> threes of_N (1, 1, of_N 1)%N ns /\ 2 * length places <= 3 * c_nnz B <= 2 * length places + 2.
  Proof.
    intros Hg Hh Hp Hc Hs Hr1 Hr2 Hn ns Hf Hi.
    assert (Hx : mm_is_complex t = false) by (unfold mm_is_complex, mm_is_pattern in *; apply Nat.eqb_eq in Hp; by rewrite Hp).
    assert (Hl : length ns = 2 * length places) by (unfold ns; clear; induction places as [|p l IH]; [done|]; cbn [flat_map]; rewrite app_length, IH; cbn [length]; lia).
    assert (Hall : forall k ns q, length ns <= k -> Forall (fun n => 1 <= n <= N.of_nat itW /\ n <= ulong_max)%N ns -> indexable q -> Forall indexable (threes of_N q ns)).
    { clear. induction k as [|k IH]; intros ns q Hk Hns Hq; [destruct ns; [constructor|cbn [length] in Hk; lia]|].
      destruct q as [[q1 q2] q3]. destruct Hq as (Q1 & Q2 & Q3 & Q4). cbn [fst snd] in *.
      destruct ns as [|n1 [|n2 [|n3 ns]]]; cbn [threes length] in *.
      - constructor.
      - apply Forall_cons in Hns as [H1 _]. constructor; [|constructor]. unfold indexable. cbn [fst snd]. lia.
      - apply Forall_cons in Hns as [H1 Hns]. apply Forall_cons in Hns as [H2 _]. constructor; [|constructor]. unfold indexable. cbn [fst snd]. lia.
      - apply Forall_cons in Hns as [H1 Hns]. apply Forall_cons in Hns as [H2 Hns]. apply Forall_cons in Hns as [H3 Hns].
        assert (Hq' : indexable (n1, n2, of_N n3)) by (unfold indexable; cbn [fst snd]; lia). constructor; [done|]. apply IH; [lia|done|done]. }
    destruct (C102_threes of_N fuel t nr nc (Z.of_nat (length places)) h ns f (1, 1, of_N 1)%N) as (A & HA & HB); try done; [lia|lia| |].
    { apply (Hall (length ns)); [done|done|]. unfold indexable, ulong_max. cbn [fst snd]. lia. }
    exists A. eexists. split; [exact HA|]. split; [exact HB|]. split; [done|]. unfold c_nnz. cbn [c_elems]. rewrite fmap_length.
    pose proof (threes_length of_N (length ns) ns (1, 1, of_N 1)%N (le_n _)). lia.
  Qed.
End files.

(** ** words *)
(** C59: the words of a line are its longest runs of characters other than tab, line feed,
    vertical tab, form feed, carriage return and space *)
Definition white (c : nat) : Prop := c = 9 \/ c = 10 \/ c = 11 \/ c = 12 \/ c = 13 \/ c = 32.
Inductive separated : list bytes -> bytes -> Prop :=
| separated_nil w : Forall white w -> separated [] w
| separated_cons w t ws s : Forall white w -> t <> [] -> Forall (fun c => ~ white c) t -> match s with [] => True | c :: _ => white c end ->
    separated ws s -> separated (t :: ws) (w ++ t ++ s).
Lemma white_space c : white c <-> is_space c = true.
Proof. unfold white, is_space. lia. Qed.
Lemma whites_spaces w : Forall white w <-> spaces w.
Proof. unfold spaces. split; intros Hw; (eapply Forall_impl; [exact Hw|]; intros c Hc; by apply white_space). Qed.
Lemma not_whites w : Forall (fun c => ~ white c) w <-> no_spaces w.
Proof.
  unfold no_spaces. split; intros Hw; (eapply Forall_impl; [exact Hw|]; intros c Hc); cbn beta in *.
  - apply not_true_is_false. intros Ht. by apply Hc, white_space.
  - intros Ht. apply white_space in Ht. congruence.
Qed.
Lemma separated_words ws s : separated ws s -> words s = ws.
Proof.
  induction 1 as [w Hw|w t ws s Hw Ht Hn Hs _ IH].
  - apply whites_spaces in Hw. apply words_nil. by apply skip_space_nil.
  - apply whites_spaces in Hw. apply not_whites in Hn. rewrite <- words_skip, skip_spaces_app, words_skip, words_cons; [by rewrite IH|done|done| |done]. destruct s; [done|by apply white_space].
Qed.
Lemma split_word s : exists t r, s = t ++ r /\ no_spaces t /\ ends r.
Proof.
  induction s as [|c s (t & r & -> & Ht & Hr)]; [by exists [], []; repeat split; constructor|].
  destruct (is_space c) eqn:Hc; [by exists [], (c :: t ++ r); repeat split; [constructor|]|]. exists (c :: t), r. split; [done|]. split; [by constructor|done].
Qed.
Lemma separated_exists n s : length s <= n -> exists ws, separated ws s.
Proof.
  revert s. induction n as [|n IH]; intros s Hs; [destruct s; [|cbn [length] in Hs; lia]; exists []; by repeat constructor|].
  destruct (skip_space_spec s) as (w & Hw & Hsw & Hstop). destruct (skip_space s) as [|c r] eqn:Hk.
  - rewrite app_nil_r in Hsw. subst s. exists []. constructor. by apply whites_spaces.
  - destruct (split_word (c :: r)) as (t & r' & Hcr & Ht & Hr'). rewrite Hcr in Hsw. subst s.
    assert (Hne : t <> []).
    { intros ->. cbn [app] in Hcr. rewrite <- Hcr in Hr'. cbn in Hr'. destruct Hstop as [?|(c' & r0 & [= <- <-] & Hc)]; [done|]. congruence. }
    destruct (IH r') as [ws Hws]; [rewrite !app_length in Hs; destruct t; [done|]; cbn [length] in Hs; lia|]. exists (t :: ws). constructor; [by apply whites_spaces|done|by apply not_whites| |done].
    destruct r' as [|z r']; [done|]. by apply white_space.
Qed.
Theorem C59_white_space ws s : words s = ws <-> separated ws s.
Proof.
  split; [|apply separated_words]. intros <-. destruct (separated_exists (length s) s (le_n _)) as [ws Hws]. by rewrite (separated_words _ _ Hws).
Qed.

(** ** examples *)
Local Instance ex_W32' : Widths := {| itW := 2 ^ 31 + 2 ^ 31; sitW := 256 |}.
Definition ex_gen : bytes := str "%%MatrixMarket matrix coordinate real general" ++ nl ++ str "9 9 4" ++ nl.
Lemma ex_gen_header : mm_header (TypeCode (chr "M") (chr "C") (chr "R") (chr "G")) 9 9 4 ex_gen.
Proof.
  exists (str "%%MatrixMarket matrix coordinate real general"), [], (str "9 9 4"). split; [done|]. split.
  { exists [], (str "matrix"), (str "coordinate"), (str "real"), (str "general"), []. split; [vm_compute; reflexivity|]. split; [done|]. split; [reflexivity|].
    unfold format_names, field_names, symmetry_names. rewrite !elem_of_cons. auto 10. }
  split; [vm_compute; repeat constructor|]. split; [vm_compute; repeat constructor; done|]. split; [vm_compute; lia|]. split; [constructor|].
  assert (Hit : int_text 9 (str "9")) by (exists (str "9"); split; [by repeat constructor|]; split; [done|]; by left).
  assert (Hi4 : int_text 4 (str "4")) by (exists (str "4"); split; [by repeat constructor|]; split; [done|]; by left).
  exists [], (str "9"), [32], (str "9"), [32], (str "4"), []. split; [done|]. repeat (split; [first [exact Hit|exact Hi4|by repeat constructor|done|unfold int_range, int_max; lia]|]).
  cbn. lia.
Qed.
Lemma ex_indexable (l : list (N * N * Z)) : Forall (fun e => 1 <= e.1.1 <= 9 /\ 1 <= e.1.2 <= 9)%N l -> Forall indexable l.
Proof.
  pose proof ex_W32_int as HW. unfold int_max in HW. change (itW (Widths := ex_W32)) with (itW (Widths := ex_W32')) in HW.
  intros Hl. eapply Forall_impl; [exact Hl|]. intros e [H1 H2]. unfold indexable, ulong_max. generalize dependent (itW (Widths := ex_W32')). intros n Hn. lia.
Qed.
(** "3 2" instead of "3 2 9": the value is -7, that of the entry before *)
Definition ex_cut : bytes := str "1 1 5" ++ nl ++ str "3 1 -7" ++ nl ++ str "3 2".
Lemma ex_num d : is_digit d = true -> num_text (N.of_nat (d - 48)) [d].
Proof. intros Hd. split; [by repeat constructor|]. split; [done|]. cbn. done. Qed.
Lemma ex_entries (b : bytes) : ends b -> entries_text toy_scan [(1, 1, 5%Z); (3, 1, (-7)%Z)]%N (str "1 1 5" ++ nl ++ str "3 1 -7" ++ b) b.
Proof.
  intros Hb.
  assert (Hr : forall z t, int_text z t -> match t with c :: _ => c <> 43 | [] => True end -> real_text toy_scan z t).
  { intros z t Ht Hc. destruct (toy_real z t Ht) as [?|[d ->]]; [done|]. done. }
  apply (entries_cons _ _ _ (str "1 1 5") (nl ++ str "3 1 -7" ++ b)); [|done|].
  { exists [], (str "1"), [32], (str "1"), [32], (str "5"). split; [done|]. do 5 (split; [first [done|by repeat constructor]|]). split; [apply (ex_num 49 eq_refl)|]. split; [apply (ex_num 49 eq_refl)|].
    apply Hr; [|done]. exists (str "5"). split; [by repeat constructor|]. split; [done|]. by left. }
  change (nl ++ str "3 1 -7" ++ b) with ((nl ++ str "3 1 -7") ++ b). apply (entries_cons _ _ _ (nl ++ str "3 1 -7") b); [|done|constructor].
  exists nl, (str "3"), [32], (str "1"), [32], (str "-7"). split; [done|]. do 5 (split; [first [done|by repeat constructor]|]). split; [apply (ex_num 51 eq_refl)|]. split; [apply (ex_num 49 eq_refl)|].
  apply Hr; [|done]. exists (str "7"). split; [by repeat constructor|]. split; [done|]. by right; right.
Qed.
Example C102_ex_cut fuel : exists A, read_mm_COO toy_scan fuel (Some (ex_gen ++ ex_cut)) = Ok (0%Z, Some A) /\
  raw_holds A (Coo 9 9 [Elem 0 0 5%Z 0; Elem 2 0 (-7)%Z 0; Elem 2 1 (-7)%Z 0]).
Proof.
  pose proof ex_W32_int as HW. unfold int_max in HW. change (itW (Widths := ex_W32)) with (itW (Widths := ex_W32')) in HW.
  apply (C102_cut_general toy_scan fuel (TypeCode (chr "M") (chr "C") (chr "R") (chr "G")) 9 9 4 ex_gen [(1, 1, 5%Z); (3, 1, (-7)%Z)]%N (3, 1, (-7)%Z)%N (3, 2, (-7)%Z)%N ex_cut (nl ++ str "3 2")).
  - exact ex_gen_header. - done. - done. - done. - lia. - lia. - lia. - by apply (ex_entries (nl ++ str "3 2")). - done.
  - exists nl, 3%N, (str "3"), []. split; [by repeat constructor|]. split; [apply (ex_num 51 eq_refl)|]. split; [constructor|]. right.
    exists [32], 2%N, (str "2"). split; [by repeat constructor|]. split; [done|]. split; [apply (ex_num 50 eq_refl)|]. split; [vm_compute; reflexivity|reflexivity].
  - apply ex_indexable. repeat constructor; cbn; lia.
  - cbn. lia.
Qed.
(** a comment among the entries *)
Definition ex_word : bytes := str "1 1 5" ++ nl ++ str "3 1 -7" ++ nl ++ str "% two more" ++ nl ++ str "3 2 9" ++ nl ++ str "4 4 1" ++ nl.
Example C102_ex_word fuel : exists A, read_mm_COO toy_scan fuel (Some (ex_gen ++ ex_word)) = Ok (0%Z, Some A) /\
  raw_holds A (Coo 9 9 [Elem 0 0 5%Z 0; Elem 2 0 (-7)%Z 0; Elem 2 0 (-7)%Z 0; Elem 2 0 (-7)%Z 0]).
Proof.
  pose proof ex_W32_int as HW. unfold int_max in HW. change (itW (Widths := ex_W32)) with (itW (Widths := ex_W32')) in HW.
  apply (C102_word_general toy_scan fuel (TypeCode (chr "M") (chr "C") (chr "R") (chr "G")) 9 9 4 ex_gen [(1, 1, 5%Z); (3, 1, (-7)%Z)]%N (3, 1, (-7)%Z)%N ex_word (nl ++ str "% two more" ++ nl ++ str "3 2 9" ++ nl ++ str "4 4 1" ++ nl)).
  - exact ex_gen_header. - done. - done. - done. - lia. - lia. - lia. - by apply ex_entries. - done.
  - exists nl, 37, (str " two more" ++ nl ++ str "3 2 9" ++ nl ++ str "4 4 1" ++ nl). split; [vm_compute; reflexivity|]. split; [by repeat constructor|]. split; [reflexivity|]. split; [reflexivity|]. split; lia.
  - apply ex_indexable. repeat constructor; cbn; lia.
  - cbn. lia.
Qed.
(** four places without values *)
Definition ex_places : list (N * N) := [(1, 2); (3, 4); (5, 6); (7, 8)]%N.
Example C102_ex_threes : listed <$> threes Z.of_N (1, 1, 1%Z)%N (flat_map (fun p => [p.1; p.2]) ex_places) = [Elem 0 1 3%Z 0; Elem 3 4 6%Z 0; Elem 6 7 6%Z 0].
Proof. done. Qed.
Lemma ex_places_text : numbers_text (flat_map (fun p => [p.1; p.2]) ex_places) (str "1 2" ++ nl ++ str "3 4" ++ nl ++ str "5 6" ++ nl ++ str "7 8" ++ nl).
Proof.
  pose proof (fun d (Hd : is_digit d = true) m ns f => numbers_cons [32] (N.of_nat (d - 48)) [d] m ns f ltac:(by repeat constructor) (ex_num d Hd)) as Hc.
  pose proof (fun d (Hd : is_digit d = true) m ns f => numbers_cons nl (N.of_nat (d - 48)) [d] m ns f ltac:(by repeat constructor) (ex_num d Hd)) as Hl.
  apply (numbers_cons [] 1 (str "1")); [constructor|apply (ex_num 49 eq_refl)|done|].
  apply (Hc 50); [done|done|]. apply (Hl 51); [done|done|]. apply (Hc 52); [done|done|]. apply (Hl 53); [done|done|]. apply (Hc 54); [done|done|]. apply (Hl 55); [done|done|].
  apply (numbers_one [32] 8 (str "8") nl); [by repeat constructor|apply (ex_num 56 eq_refl)|by repeat constructor].
Qed.
Lemma toy_number n t : num_text n t -> real_text toy_scan (Z.of_N n) t.
Proof.
  intros (Hd & Hne & Hv). assert (Hi : int_text (Z.of_N n) t) by (exists t; split; [done|]; split; [done|]; left; by rewrite Hv).
  destruct (toy_real _ _ Hi) as [?|[d ->]]; [done|]. apply Forall_cons in Hd as [Hd _]. done.
Qed.
Definition ex_pat : bytes := str "%%MatrixMarket matrix coordinate pattern general" ++ nl ++ str "9 9 4" ++ nl.
Lemma ex_pat_header : mm_header (TypeCode (chr "M") (chr "C") (chr "P") (chr "G")) 9 9 4 ex_pat.
Proof.
  exists (str "%%MatrixMarket matrix coordinate pattern general"), [], (str "9 9 4"). split; [done|]. split.
  { exists [], (str "matrix"), (str "coordinate"), (str "pattern"), (str "general"), []. split; [vm_compute; reflexivity|]. split; [done|]. split; [reflexivity|].
    unfold format_names, field_names, symmetry_names. rewrite !elem_of_cons. auto 10. }
  split; [vm_compute; repeat constructor|]. split; [vm_compute; repeat constructor; done|]. split; [vm_compute; lia|]. split; [constructor|].
  assert (Hit : int_text 9 (str "9")) by (exists (str "9"); split; [by repeat constructor|]; split; [done|]; by left).
  assert (Hi4 : int_text 4 (str "4")) by (exists (str "4"); split; [by repeat constructor|]; split; [done|]; by left).
  exists [], (str "9"), [32], (str "9"), [32], (str "4"), []. split; [done|]. repeat (split; [first [exact Hit|exact Hi4|by repeat constructor|done|unfold int_range, int_max; lia]|]).
  cbn. lia.
Qed.
(** a file that denotes the four places (0,1), (2,3), (4,5), (6,7) *)
Example C102_ex_pattern fuel : exists A B, read_mm_COO toy_scan fuel (Some (ex_pat ++ str "1 2" ++ nl ++ str "3 4" ++ nl ++ str "5 6" ++ nl ++ str "7 8" ++ nl)) = Ok (0%Z, Some A) /\
  raw_holds A B /\ c_elems B = [Elem 0 1 3%Z 0; Elem 3 4 6%Z 0; Elem 6 7 6%Z 0].
Proof.
  pose proof ex_W32_int as HW. unfold int_max in HW. change (itW (Widths := ex_W32)) with (itW (Widths := ex_W32')) in HW.
  destruct (C102_pattern_refuted toy_scan Z.of_N fuel (TypeCode (chr "M") (chr "C") (chr "P") (chr "G")) 9 9 ex_pat ex_places (str "1 2" ++ nl ++ str "3 4" ++ nl ++ str "5 6" ++ nl ++ str "7 8" ++ nl) toy_number ex_pat_header)
    as (A & B & HA & HB & HE & _); [done|done|done|lia|lia|change (length ex_places) with 4; lia|exact ex_places_text| |].
  - unfold ulong_max. generalize dependent (itW (Widths := ex_W32')). intros n Hn. cbn [ex_places flat_map app fst snd]. repeat constructor; lia.
  - exists A, B. split; [exact HA|]. split; [exact HB|]. rewrite HE. exact C102_ex_threes.
Qed.
Example C59_white_space_ex : words (str "a " ++ [9; 13] ++ str "b" ++ [10]) = [str "a"; str "b"].
Proof. done. Qed.
