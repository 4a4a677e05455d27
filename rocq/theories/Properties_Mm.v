(** Properties_Mm.v: C59-C65, Matrix Market text (dep/mm_io, include/io/input.h:36-127,
    include/io/output.h:28-75) and the choice of the reader.

    Files are lists of character codes.  [words], [spaces], [ends], [num_text] (unsigned
    decimal number), [int_text] (decimal number with optional sign) are in TextProof.v;
    [comment_line] in MmProof.v; [real_text], [entries_text] in Mm2Proof.v. *)
From Verif Require Import Mm2Proof.
From Coq Require Import ZifyNat ZifyBool ZifyN.

(** ** the banner *)
(** the first line as fgets delivers it to sscanf: at most 1024 characters, cut at a zero *)
Definition first_line (f : bytes) : bytes := c_string (line_of 1024 f).1.
Definition after_first_line (f : bytes) : bytes := (line_of 1024 f).2.
(** the names of the Matrix Market format, with the characters of the type code *)
Definition format_names : list (nat * bytes) := [(chr "C", str "coordinate"); (chr "A", str "array")].
Definition field_names : list (nat * bytes) := [(chr "R", str "real"); (chr "C", str "complex"); (chr "P", str "pattern"); (chr "I", str "integer")].
Definition symmetry_names : list (nat * bytes) := [(chr "G", str "general"); (chr "S", str "symmetric"); (chr "H", str "hermitian"); (chr "K", str "skew-symmetric")].
(** the words of a banner name the type t; names may be in any letter case, and words after
    the fifth are ignored *)
Definition names_type (ws : list bytes) (t : typecode) : Prop :=
  exists rest w1 w2 w3 w4 more, ws = (str "%%MatrixMarket" ++ rest) :: w1 :: w2 :: w3 :: w4 :: more /\
    t_object t = chr "M" /\ lower w1 = str "matrix" /\
    (t_format t, lower w2) ∈ format_names /\ (t_field t, lower w3) ∈ field_names /\ (t_symmetry t, lower w4) ∈ symmetry_names.
Definition short_words (l : bytes) : Prop := Forall (fun w => length w < 64) (take 5 (words l)).
(** the type codes that have a name *)
Definition named (t : typecode) : Prop :=
  t_object t = chr "M" /\ t_format t ∈ format_names.*1 /\ t_field t ∈ field_names.*1 /\ t_symmetry t ∈ symmetry_names.*1.

Lemma has_prefix_spec b a : has_prefix b a = true <-> exists r, a = b ++ r.
Proof.
  unfold has_prefix. rewrite str_eqb_spec. split.
  - intros Ht. exists (drop (length b) a). by rewrite <- Ht at 1; rewrite take_drop.
  - intros [r ->]. by rewrite take_app.
Qed.
Lemma banner_fields_spec m c d s t : banner_fields mm_clear m c d s = (0%Z, t) <->
  t_object t = chr "M" /\ m = str "matrix" /\ (t_format t, c) ∈ format_names /\ (t_field t, d) ∈ field_names /\ (t_symmetry t, s) ∈ symmetry_names.
Proof.
  unfold format_names, field_names, symmetry_names. rewrite !elem_of_cons, !elem_of_nil. destruct t as [to tf td ts]. cbn [t_object t_format t_field t_symmetry].
  unfold banner_fields. cbn [t_object t_format t_field t_symmetry]. split.
  - destruct (str_eqb m (str "matrix")) eqn:Em; [|done]. apply str_eqb_spec in Em. cbn [negb].
    destruct (str_eqb c (str "coordinate")) eqn:Ec; [apply str_eqb_spec in Ec|destruct (str_eqb c (str "array")) eqn:Ec2; [apply str_eqb_spec in Ec2|done]];
    (destruct (str_eqb d (str "real")) eqn:Ed1; [apply str_eqb_spec in Ed1|destruct (str_eqb d (str "complex")) eqn:Ed2; [apply str_eqb_spec in Ed2|
       destruct (str_eqb d (str "pattern")) eqn:Ed3; [apply str_eqb_spec in Ed3|destruct (str_eqb d (str "integer")) eqn:Ed4; [apply str_eqb_spec in Ed4|done]]]]);
    (destruct (str_eqb s (str "general")) eqn:Es1; [apply str_eqb_spec in Es1|destruct (str_eqb s (str "symmetric")) eqn:Es2; [apply str_eqb_spec in Es2|
       destruct (str_eqb s (str "hermitian")) eqn:Es3; [apply str_eqb_spec in Es3|destruct (str_eqb s (str "skew-symmetric")) eqn:Es4; [apply str_eqb_spec in Es4|done]]]]);
    intros [= <- <- <- <-]; subst; intuition auto.
  - intros (-> & -> & Hc & Hd & Hs).
    destruct Hc as [[= -> ->]|[[= -> ->]|[]]]; destruct Hd as [[= -> ->]|[[= -> ->]|[[= -> ->]|[[= -> ->]|[]]]]]; destruct Hs as [[= -> ->]|[[= -> ->]|[[= -> ->]|[[= -> ->]|[]]]]]; reflexivity.
Qed.
Lemma take5 {A} (l : list A) : match take 5 l with [a; b; c; d; e] => exists more, l = a :: b :: c :: d :: e :: more | _ => ~ exists a b c d e more, l = a :: b :: c :: d :: e :: more end.
Proof. destruct l as [|a [|b [|c [|d [|e more]]]]]; cbn; [by intros (?&?&?&?&?&?&[=])..|by exists more]. Qed.

(** C59: the reader accepts a first line exactly when its words name a type, which it
    returns, and then stands at the next line *)
Theorem C59_reads f t rest : short_words (first_line f) ->
  mm_read_banner f = Ok (0%Z, t, rest) <-> names_type (words (first_line f)) t /\ rest = after_first_line f.
Proof.
  intros Hs. destruct (decide (f = [])) as [->|Hne].
  { split; [done|]. intros [(? & ? & ? & ? & ? & ? & Hw & _) _]. done. }
  unfold mm_read_banner. assert (fgets MM_MAX_LINE_LENGTH f = Some (line_of 1024 f)) as -> by (by destruct f).
  unfold first_line, after_first_line, short_words in *. destruct (line_of 1024 f) as [line r]. cbn [fst snd] in *.
  rewrite sscanf_words_ok by done. cbn [mbind outcome_bind]. pose proof (take5 (words (c_string line))) as Ht.
  assert (Hno : ~ (exists a b c d e more, words (c_string line) = a :: b :: c :: d :: e :: more) ->
    Ok (MM_PREMATURE_EOF, mm_clear, r) = Ok (0%Z, t, rest) <-> names_type (words (c_string line)) t /\ rest = r).
  { intros Hn. split; [done|]. intros [(? & ? & ? & ? & ? & ? & Hw & _) _]. destruct Hn. eauto 10. }
  destruct (take 5 (words (c_string line))) as [|banner [|mtx [|crd [|dt [|st [|? ?]]]]]]; try by apply Hno.
  destruct Ht as [more Hw]. clear Hno. rewrite Hw. destruct (has_prefix MatrixMarketBanner banner) eqn:Hp; cbn [negb].
  - apply has_prefix_spec in Hp as [p ->].
    destruct (banner_fields mm_clear (lower mtx) (lower crd) (lower dt) (lower st)) as [code t'] eqn:Hb. split.
    + intros [= -> -> ->]. apply banner_fields_spec in Hb as (H1 & H2 & H3 & H4 & H5). split; [|done]. exists p, mtx, crd, dt, st, more. done.
    + intros [(p' & ? & ? & ? & ? & ? & [= _ <- <- <- <- _] & H1 & H2 & H3 & H4 & H5) ->].
      rewrite (proj2 (banner_fields_spec _ _ _ _ t) (conj H1 (conj H2 (conj H3 (conj H4 H5))))) in Hb. injection Hb as <- <-. done.
  - split; [done|]. intros [(p' & ? & ? & ? & ? & ? & [= -> _ _ _ _ _] & _) _].
    assert (Hp' : has_prefix MatrixMarketBanner (str "%%MatrixMarket" ++ p') = true) by (apply has_prefix_spec; by exists p'). exfalso; exact (eq_true_false_abs _ Hp' Hp).
Qed.

Lemma words_from_lower cur s : words_from (lower cur) (lower s) = lower <$> words_from cur s.
Proof.
  revert cur. induction s as [|c s IH]; intros cur; cbn; [by destruct cur|]. rewrite lower_char_space. destruct (is_space c).
  - destruct cur as [|z cur]; cbn; [exact (IH [])|]. f_equal. exact (IH []).
  - rewrite <- IH. f_equal. unfold lower. by rewrite fmap_app.
Qed.
Lemma words_lower s : words (lower s) = lower <$> words s.
Proof. exact (words_from_lower [] s). Qed.
Lemma mm_read_banner_line l rest t : Forall (fun c => c <> 10 /\ c <> 0) l -> length l < 1024 -> short_words l -> names_type (words l) t ->
  mm_read_banner (l ++ [10] ++ rest) = Ok (0%Z, t, rest).
Proof.
  intros Hl Hn Hs Ht. assert (Hlo : line_of 1024 (l ++ [10] ++ rest) = (l ++ [10], rest)).
  { apply line_of_line; [|done]. eapply Forall_impl; [exact Hl|]. by intros c []. }
  assert (Hf : words (first_line (l ++ [10] ++ rest)) = words l).
  { unfold first_line. rewrite Hlo. cbn [fst]. rewrite c_string_line.
    - destruct (decide (no_spaces l /\ l <> [])) as [[H1 H2]|_]; [rewrite words_cons by done; rewrite <- (app_nil_r l) at 2; by rewrite words_cons by done|].
      assert (Hgen : forall cur s, words_from cur (s ++ [10]) = words_from cur s).
      { intros cur s. revert cur. induction s as [|c s IH]; intros cur; cbn; [by destruct cur|]. destruct (is_space c); [destruct cur|]; by rewrite !IH. }
      apply Hgen.
    - apply Forall_app. split; [|by repeat constructor]. eapply Forall_impl; [exact Hl|]. by intros c []. }
  apply C59_reads; [unfold short_words; by rewrite Hf|]. rewrite Hf. split; [done|]. unfold after_first_line. by rewrite Hlo.
Qed.

(** C59: for every named type the banner written for it, in any letter case of the names,
    is read back as that type *)
Theorem C59_roundtrip t : named t ->
  exists names code, mm_write_banner t = Ok (code, str "%%MatrixMarket" ++ names ++ [10]) /\
    forall names' rest, lower names' = names -> mm_read_banner (str "%%MatrixMarket" ++ names' ++ [10] ++ rest) = Ok (0%Z, t, rest).
Proof.
  intros (Ho & Hf & Hd & Hs). destruct t as [to tf td ts]. cbn [t_object t_format t_field t_symmetry] in *. subst to.
  cut (exists n2 n3 n4, (tf, n2) ∈ format_names /\ (td, n3) ∈ field_names /\ (ts, n4) ∈ symmetry_names).
  2: { apply elem_of_list_fmap in Hf as ([? n2] & -> & ?), Hd as ([? n3] & -> & ?), Hs as ([? n4] & -> & ?). cbn. eauto 10. }
  intros (n2 & n3 & n4 & H2 & H3 & H4).
  pose (names := [32] ++ str "matrix" ++ [32] ++ n2 ++ [32] ++ n3 ++ [32] ++ n4).
  assert (Hfacts : (exists code, mm_write_banner (TypeCode (chr "M") tf td ts) = Ok (code, str "%%MatrixMarket" ++ names ++ [10])) /\
    words names = [str "matrix"; n2; n3; n4] /\ length names <? 1000 = true /\ forallb (fun c => negb (c =? 10) && negb (c =? 0)) names = true /\
    forallb (fun w => length w <? 64) (words (str "%%MatrixMarket" ++ names)) = true).
  { subst names. unfold format_names, field_names, symmetry_names in *. rewrite !elem_of_cons, !elem_of_nil in *. clear -H2 H3 H4.
    destruct H2 as [[= -> ->]|[[= -> ->]|[]]]; destruct H3 as [[= -> ->]|[[= -> ->]|[[= -> ->]|[[= -> ->]|[]]]]]; destruct H4 as [[= -> ->]|[[= -> ->]|[[= -> ->]|[[= -> ->]|[]]]]];
    (split; [eexists; vm_compute; reflexivity|]; vm_compute; repeat split; reflexivity). }
  destruct Hfacts as ([code Hw] & Hwords & Hlen & Hch & Hshort). apply Nat.ltb_lt in Hlen.
  rewrite forallb_forall in Hch, Hshort. assert (Hshort' : Forall (fun w => length w < 64) (words (str "%%MatrixMarket" ++ names))).
  { apply Forall_forall. intros w Hx. apply Nat.ltb_lt, Hshort. by apply elem_of_list_In. }
  clear Hshort. rename Hshort' into Hshort.
  exists names, code. split; [exact Hw|]. intros names' rest Hl'.
  assert (Hl : length names' = length names) by (rewrite <- Hl'; unfold lower; by rewrite fmap_length).
  assert (Hlw : forall l, lower l = names -> exists l', l = 32 :: l').
  { intros l Hln. destruct l as [|c l]; [by subst names|]. cbn in Hln. injection Hln as Hc _. exists l. f_equal. unfold lower_char in Hc. destruct ((65 <=? c) && (c <=? 90)) eqn:E65; lia. }
  destruct (Hlw names' Hl') as [l' El'].
  assert (Hwn : words (str "%%MatrixMarket" ++ names') = str "%%MatrixMarket" :: words names') by (rewrite words_cons; [done|by repeat constructor|done|by rewrite El']).
  assert (Hwl : lower <$> words names' = [str "matrix"; n2; n3; n4]) by (by rewrite <- words_lower, Hl').
  rewrite app_assoc. apply mm_read_banner_line.
  - apply Forall_app. split; [by repeat constructor|]. apply Forall_forall. intros c Hc.
    assert (Hin : lower_char c ∈ names) by (rewrite <- Hl'; by apply elem_of_list_fmap_1). apply elem_of_list_In, Hch in Hin. apply andb_true_iff in Hin as [G1 G2]. apply negb_true_iff, Nat.eqb_neq in G1, G2.
    unfold lower_char in G1, G2. destruct ((65 <=? c) && (c <=? 90)) eqn:Ec; lia.
  - rewrite app_length, Hl. change (length (str "%%MatrixMarket")) with 14. lia.
  - unfold short_words. apply Forall_take. rewrite Hwn. constructor; [vm_compute; lia|].
    assert (Hn2 : words (str "%%MatrixMarket" ++ names) = str "%%MatrixMarket" :: words names) by (rewrite words_cons; [done|by repeat constructor|done|done]).
    rewrite Hn2 in Hshort. apply Forall_cons in Hshort as [_ Hshort]. rewrite <- Hl', words_lower, Forall_fmap in Hshort.
    eapply Forall_impl; [exact Hshort|]. intros w. cbn. unfold lower. by rewrite fmap_length.
  - exists [], (nth 0 (words names') []), (nth 1 (words names') []), (nth 2 (words names') []), (nth 3 (words names') []), []. cbn [t_object t_format t_field t_symmetry].
    rewrite Hwn. destruct (words names') as [|w1 [|w2 [|w3 [|w4 [|? ?]]]]]; try done. cbn in Hwl. injection Hwl as E1 E2 E3 E4. cbn [nth]. rewrite app_nil_r, E2, E3, E4. done.
Qed.
Example C59_ex1 : mm_read_banner (str "%%MatrixMarket mAtrix  COORDINATE Real symmetric extra" ++ [10; 55]) = Ok (0%Z, TypeCode (chr "M") (chr "C") (chr "R") (chr "S"), [55]).
Proof. vm_compute. reflexivity. Qed.
Example C59_ex2 : named (TypeCode (chr "M") (chr "C") (chr "I") (chr "K")).
Proof. unfold named, format_names, field_names, symmetry_names. cbn. rewrite !elem_of_cons. auto 10. Qed.

(** C60: reading a banner is undefined exactly when one of the first five words of the first
    line has 64 characters or more (a write past a 64 byte buffer); otherwise it returns *)
Theorem C60_defined f : short_words (first_line f) <-> exists code t rest, mm_read_banner f = Ok (code, t, rest).
Proof.
  unfold mm_read_banner, short_words, first_line. destruct (decide (f = [])) as [->|Hne].
  { split; [|by constructor]. intros _. cbn. eauto. }
  assert (fgets MM_MAX_LINE_LENGTH f = Some (line_of 1024 f)) as -> by (by destruct f). destruct (line_of 1024 f) as [line r]. cbn [fst]. split.
  - intros Hs. rewrite sscanf_words_ok by done. cbn [mbind outcome_bind].
    destruct (take 5 (words (c_string line))) as [|? [|? [|? [|? [|? [|? ?]]]]]]; eauto.
    destruct (has_prefix _ _); cbn [negb]; [|eauto]. destruct (banner_fields _ _ _ _ _); eauto.
  - intros (code & t & rest & Hr). destruct (take_words_dec 5 (c_string line)) as [Hs|Hs]; [done|]. by rewrite sscanf_words_overflow in Hr.
Qed.
Theorem C60_overflow_refuted f : Exists (fun w => 64 <= length w) (take 5 (words (first_line f))) <-> mm_read_banner f = Undef BufferOverflow.
Proof.
  split.
  - unfold mm_read_banner, first_line. destruct (decide (f = [])) as [->|Hne]; [by intros Hx; inversion Hx|].
    assert (fgets MM_MAX_LINE_LENGTH f = Some (line_of 1024 f)) as -> by (by destruct f). destruct (line_of 1024 f) as [line r]. cbn [fst].
    intros Hs. by rewrite sscanf_words_overflow.
  - intros Hr. destruct (take_words_dec 5 (first_line f)) as [Hs|Hs]; [|done].
    destruct (proj1 (C60_defined f) Hs) as (? & ? & ? & Hr'). congruence.
Qed.
(** such a file *)
Example C60_ex : mm_read_banner (str "%%MatrixMarket " ++ replicate 64 97 ++ [10]) = Undef BufferOverflow.
Proof. vm_compute. reflexivity. Qed.

(** ** the size line *)
(** three numbers of type int separated by white space, on one line of less than 1024 characters *)
Definition size_line (a b c : Z) (l : bytes) : Prop :=
  exists w1 t1 w2 t2 w3 t3 w4, l = w1 ++ t1 ++ w2 ++ t2 ++ w3 ++ t3 ++ w4 /\ spaces w1 /\ spaces w2 /\ w2 <> [] /\ spaces w3 /\ w3 <> [] /\ spaces w4 /\
    int_text a t1 /\ int_text b t2 /\ int_text c t3 /\ int_range a /\ int_range b /\ int_range c /\ Forall (fun c => c <> 10) l /\ length l < 1024.
Lemma spaces_nonzero w : spaces w -> Forall (fun c => c <> 0) w.
Proof. intros Hw. eapply Forall_impl; [exact Hw|]. intros c Hc ->. done. Qed.
Lemma int_text_nonzero z t : int_text z t -> Forall (fun c => c <> 0) t.
Proof. intros Ht. destruct (int_text_facts z t Ht) as (_ & _ & Hf). eapply Forall_impl; [exact Hf|]. by intros c (_ & ? & _). Qed.
Lemma spaces_ends0 w : spaces w -> ends w.
Proof. destruct 1; done. Qed.

(** C61: comment lines (of at most 1024 characters) and then a line of three numbers: the reader returns
    the numbers and stands at the next line.  [fuel] bounds the turns of the second loop *)
Theorem C61_size fuel cs a b c l rest : Forall comment_line cs -> size_line a b c l ->
  mm_read_mtx_crd_size fuel (concat cs ++ l ++ [10] ++ rest) = Ok (0%Z, (a, b, c), rest).
Proof.
  intros Hcs (w1 & t1 & w2 & t2 & w3 & t3 & w4 & -> & W1 & W2 & N2 & W3 & N3 & W4 & T1 & T2 & T3 & R1 & R2 & R3 & Hnl & Hlen).
  unfold mm_read_mtx_crd_size. rewrite skip_comments_spec; [|done|done|done| |lia].
  - cbn [mbind outcome_bind]. rewrite c_string_line.
    + rewrite <- !app_assoc, (scan_ddd_three _ _ _ _ _ _ a b c) by (first [done|apply spaces_ends0, Forall_app; split; [done|by repeat constructor]]). done.
    + repeat (apply Forall_app; split); try (by apply spaces_nonzero); try (by eapply int_text_nonzero); by repeat constructor.
  - destruct w1 as [|z w1].
    + destruct (int_text_facts a t1 T1) as (_ & Hne & Hf). destruct t1 as [|z t1]; [done|]. apply Forall_cons in Hf as [(_ & _ & Hz) _]. cbn. done.
    + apply Forall_cons in W1 as [Hz _]. cbn. intros ->. done.
Qed.
(** C61: one turn per character of the file decides: if that many turns do not suffice, no
    number of turns does; and more turns never change a result *)
Theorem C61_decided f : (mm_read_mtx_crd_size (S (length f)) f = Diverge -> forall n, mm_read_mtx_crd_size n f = Diverge) /\
  forall n m r, mm_read_mtx_crd_size n f = r -> r <> Diverge -> n <= m -> mm_read_mtx_crd_size m f = r.
Proof.
  unfold mm_read_mtx_crd_size. destruct (skip_comments_ends (S (length f)) f) as [[[line f']|] Hsk]; [lia| |].
  2: { rewrite Hsk. cbn [mbind outcome_bind]. split; [done|]. by intros n m r <- _ _. }
  rewrite Hsk. cbn [mbind outcome_bind]. destruct (scan_ddd (c_string line) (0, 0, 0)%Z) as [[[ret v] s]| | |]; cbn [mbind outcome_bind]; [|split; [done|]; by intros n m r <- _ _..].
  destruct (ret =? 3)%Z; [split; [done|]; by intros n m r <- _ _|]. split.
  - intros Hd. apply size_loop_exact. assert (Hf' : length f' <= length f).
    { clear -Hsk. revert Hsk. generalize (S (length f)) as k. intros k. revert f. induction k as [|k IH]; [done|]. intros f. cbn [skip_comments].
      unfold fgets. destruct f as [|c f]; [done|]. pose proof (line_of_length (MM_MAX_LINE_LENGTH - 1) (c :: f)) as Hl. destruct (line_of _ (c :: f)) as [l r]. cbn [snd] in Hl.
      destruct (nth 0 l 0 =? chr "%"); [|by intros [= <- <-]]. intros Hr. apply IH in Hr. lia. }
    destruct (size_loop (S (length f')) f' v) eqn:E; try done;
      by rewrite (size_loop_more _ _ _ _ E ltac:(done) (S (length f)) ltac:(lia)) in Hd.
  - intros n m r Hr Hne Hm. by apply (size_loop_more _ _ _ _ Hr).
Qed.
(** fewer than three numbers *)
Inductive few_numbers : bytes -> Prop :=
| no_numbers w : spaces w -> few_numbers w
| one_number a w1 t1 w2 : spaces w1 -> int_text a t1 -> int_range a -> spaces w2 -> few_numbers (w1 ++ t1 ++ w2)
| two_numbers a b w1 t1 w2 t2 w3 : spaces w1 -> int_text a t1 -> int_range a -> spaces w2 -> w2 <> [] -> int_text b t2 -> int_range b -> spaces w3 -> few_numbers (w1 ++ t1 ++ w2 ++ t2 ++ w3).
Lemma scan_d_rest z w t s : spaces w -> int_text z t -> int_range z -> spaces s -> scan_d (w ++ t ++ s) = Ok (Got z, s).
Proof. intros. apply scan_d_int; [done..|]. by apply spaces_ends0. Qed.
Lemma few_numbers_ddd l v : few_numbers l -> exists ret v', scan_ddd l v = Ok (ret, v', []) /\ ret <> 3%Z.
Proof.
  destruct v as [[m n] nz]. intros [w Hw|a w1 t1 w2 H1 H2 H3 H4|a b w1 t1 w2 t2 w3 H1 H2 H3 H4 H5 H6 H7 H8]; unfold scan_ddd.
  - rewrite scan_d_end by done. cbn. eauto.
  - rewrite (scan_d_rest a) by done. cbn [mbind outcome_bind]. rewrite scan_d_end by done. cbn. do 2 eexists. split; [done|lia].
  - rewrite (scan_d_int a) by (try done; by apply spaces_ends). cbn [mbind outcome_bind].
    rewrite (scan_d_rest b) by done. cbn [mbind outcome_bind]. rewrite scan_d_end by done. cbn. do 2 eexists. split; [done|lia].
Qed.
Lemma few_numbers_snoc l : few_numbers l -> few_numbers (l ++ [10]).
Proof.
  assert (Hs : forall w, spaces w -> spaces (w ++ [10])) by (intros w Hw; apply Forall_app; split; [done|by repeat constructor]).
  intros [w Hw|a w1 t1 w2 H1 H2 H3 H4|a b w1 t1 w2 t2 w3 H1 H2 H3 H4 H5 H6 H7 H8].
  - constructor. auto.
  - rewrite <- !app_assoc. eapply one_number; eauto.
  - rewrite <- !app_assoc. eapply two_numbers; eauto.
Qed.
Lemma few_numbers_chars l : few_numbers l -> Forall (fun c => c <> 0) l /\ nth 0 (l ++ [10]) 0 <> chr "%".
Proof.
  assert (Hsp : forall w, spaces w -> Forall (fun c => c <> 0 /\ c <> 37) w) by (intros w Hw; eapply Forall_impl; [exact Hw|]; intros c Hc; split; by intros ->).
  assert (Hin : forall z t, int_text z t -> Forall (fun c => c <> 0 /\ c <> 37) t).
  { intros z t Ht. destruct (int_text_facts z t Ht) as (_ & _ & Hf). eapply Forall_impl; [exact Hf|]. by intros c (_ & ? & ?). }
  intros Hl. assert (Hall : Forall (fun c => c <> 0 /\ c <> 37) l).
  { destruct Hl; repeat (apply Forall_app; split); eauto. }
  split; [eapply Forall_impl; [exact Hall|]; by intros c []|]. destruct l as [|z l]; [done|]. apply Forall_cons in Hall as [[_ Hz] _]. exact Hz.
Qed.
(** the number need not be followed by white space *)
Lemma scan_d_before z w t s : spaces w -> int_text z t -> int_range z -> no_number s -> scan_d (w ++ t ++ s) = Ok (Got z, s).
Proof.
  intros Hw Ht Hz Hs. unfold scan_d. rewrite skip_spaces_app by done.
  destruct (int_text_facts z t Ht) as (Hns & Hne & _). assert (Hsk : skip_space (t ++ s) = t ++ s).
  { destruct t as [|c t]; [done|]. apply Forall_cons in Hns as [Hc _]. cbn [app]. by apply skip_space_stop. }
  rewrite Hsk. destruct (t ++ s) eqn:Hts; [by destruct t|]. rewrite <- Hts. clear Hts Hsk Hne Hns. unfold int_range in Hz.
  assert (Hr : (int_max <? z)%Z || (z <? - int_max - 1)%Z = false) by lia.
  assert (Hsp : forall d, digits d -> span is_digit (d ++ s) = (d, s)).
  { intros d Hd. apply span_app; [done|]. destruct s as [|q s]; [done|]. apply Hs. }
  destruct Ht as (d & Hd & Hne & Ht). assert (exists c d0, d = c :: d0) as (c & d0 & Ed) by (destruct d; [done|eauto]).
  assert (Hc : (c =? 45) = false /\ (c =? 43) = false) by (apply digit_not_sign; rewrite Ed in Hd; by inversion Hd). destruct Hc as [C1 C2].
  destruct Ht as [[-> ->]|[[-> ->]|[-> ->]]].
  - assert (scan_digits (d ++ s) = (Some (false, dec_val d), s)) as ->; [|by rewrite Hr].
    unfold scan_digits. rewrite Ed at 1 2. cbn [app]. rewrite C1, C2. change (c :: d0 ++ s) with ((c :: d0) ++ s). rewrite <- Ed, Hsp by done. by rewrite Ed.
  - assert (scan_digits ((43 :: d) ++ s) = (Some (false, dec_val d), s)) as ->; [|by rewrite Hr].
    unfold scan_digits. cbn [app Nat.eqb]. rewrite Hsp by done. by rewrite Ed.
  - assert (scan_digits ((45 :: d) ++ s) = (Some (true, dec_val d), s)) as ->; [|by rewrite Hr].
    unfold scan_digits. cbn [app Nat.eqb]. rewrite Hsp by done. by rewrite Ed.
Qed.
Lemma scan_d_next z w t u s : spaces w -> int_text z t -> int_range z -> spaces u -> no_number s -> scan_d (w ++ t ++ u ++ s) = Ok (Got z, u ++ s).
Proof.
  intros Hw Ht Hz Hu Hs. destruct u as [|c u]; [by apply scan_d_before|]. apply scan_d_int; [done..|]. by inversion Hu.
Qed.
Lemma few_numbers_before l s v : few_numbers l -> no_number s -> exists ret v', scan_ddd (l ++ s) v = Ok (ret, v', s) /\ ret <> 3%Z /\ ret <> (-1)%Z.
Proof.
  destruct v as [[m n] nz]. intros [w Hw|a w1 t1 w2 H1 H2 H3 H4|a b w1 t1 w2 t2 w3 H1 H2 H3 H4 H5 H6 H7 H8] Hs; unfold scan_ddd.
  - rewrite scan_d_stuck by done. cbn. do 2 eexists. split; [done|lia].
  - rewrite <- !app_assoc, (scan_d_next a) by done. cbn [mbind outcome_bind]. rewrite scan_d_stuck by done. cbn. do 2 eexists. split; [done|lia].
  - rewrite <- !app_assoc. rewrite (scan_d_int a) by (try done; by apply spaces_ends). cbn [mbind outcome_bind].
    rewrite (scan_d_next b) by done. cbn [mbind outcome_bind]. rewrite scan_d_stuck by done. cbn. do 2 eexists. split; [done|lia].
Qed.
(** C61: a line that is not a comment and has fewer than three numbers (such as an empty
    line), and after it fewer than three numbers and then a character that cannot begin a
    number: the reader never returns *)
Theorem C61_endless_refuted cs l p s : Forall comment_line cs -> few_numbers l -> Forall (fun c => c <> 10) l -> length l < 1024 -> few_numbers p -> no_number s ->
  forall fuel, mm_read_mtx_crd_size fuel (concat cs ++ l ++ [10] ++ p ++ s) = Diverge.
Proof.
  intros Hcs Hf Hnl Hlen Hw Hs fuel. destruct (few_numbers_chars l Hf) as [Hz Hp].
  unfold mm_read_mtx_crd_size. rewrite skip_comments_spec by (try done; lia). cbn [mbind outcome_bind].
  rewrite c_string_line by (apply Forall_app; split; [done|by repeat constructor]).
  destruct (few_numbers_ddd (l ++ [10]) (0, 0, 0)%Z (few_numbers_snoc l Hf)) as (ret & v & -> & Hret). cbn [mbind outcome_bind].
  rewrite (proj2 (Z.eqb_neq ret 3) Hret).
  assert (Hst : forall p v n, few_numbers p -> size_loop n (p ++ s) v = Diverge); [|by apply Hst].
  clear -Hs. intros p v n Hp. revert p v Hp. induction n as [|n IH]; intros p v Hp; [done|]. cbn [size_loop].
  destruct (few_numbers_before p s v Hp Hs) as (ret & v' & -> & N1 & N2). cbn [mbind outcome_bind].
  rewrite (proj2 (Z.eqb_neq ret (-1)) N2), (proj2 (Z.eqb_neq ret 3) N1). apply (IH []). apply no_numbers; constructor.
Qed.
(** C61: it is only such a character that keeps the reader from returning: when only digits,
    signs and white space follow the first line that is not a comment, it returns (or a number
    overflows an int) *)
Definition numeric (c : nat) : Prop := is_digit c = true \/ is_space c = true \/ c = 45 \/ c = 43.
Lemma scan_d_numeric s v r : Forall numeric s -> scan_d s = Ok (v, r) -> Forall numeric r /\ (v = AtEnd \/ length r < length s).
Proof.
  intros Hn Hs. pose proof (scan_d_len s v r Hs) as [(a & Ha) Hl]. split; [rewrite Ha in Hn; by apply Forall_app in Hn as [_ ?]|].
  destruct v as [| |z]; [by left| |by right]. right. unfold scan_d in Hs.
  destruct (skip_space_spec s) as (w & Hw & Hs' & Hstop). destruct (skip_space s) as [|c s'] eqn:Hsk; [done|].
  assert (Hc : numeric c). { rewrite Hs' in Hn. apply Forall_app in Hn as [_ Hn]. by inversion Hn. }
  assert (Hcs : is_space c = false) by (destruct Hstop as [?|(c0 & r0 & [= <- _] & ?)]; done).
  destruct (scan_digits (c :: s')) as [[[neg n]|] r0] eqn:Hd; [by destruct (_ || _)|]. injection Hs as <-.
  rewrite Hs', app_length. cbn [length]. enough (length r0 <= length s') by lia. clear - Hd Hc Hcs.
  destruct Hc as [Hc|[Hc|Hc]]; [|congruence|].
  - destruct (digit_not_sign c Hc) as [C1 C2]. unfold scan_digits in Hd. rewrite C1, C2 in Hd. cbn [span] in Hd. rewrite Hc in Hd. destruct (span is_digit s') as [d r1]. done.
  - unfold scan_digits in Hd. assert (Hq : exists neg : bool, (let '(d, r) := span is_digit s' in match d with [] => (None, r) | _ => (Some (neg, dec_val d), r) end) = (None, r0)).
    { destruct Hc as [-> | ->]; [exists true|exists false]; exact Hd. }
    destruct Hq as [neg Hq]. pose proof (span_spec is_digit s') as Hsp. destruct (span is_digit s') as [d r1]. destruct Hsp as (-> & _ & _).
    destruct d; [injection Hq as <-|done]. done.
Qed.
Lemma scan_ddd_numeric s v ret v' r : Forall numeric s -> scan_ddd s v = Ok (ret, v', r) -> Forall numeric r /\ (ret = (-1)%Z \/ ret = 3%Z \/ length r < length s).
Proof.
  intros Hn Hs. pose proof (scan_ddd_len s v ret v' r Hs) as [(a & Ha) Hc]. split; [rewrite Ha in Hn; by apply Forall_app in Hn as [_ ?]|].
  destruct Hc as [Hc|[Hc|[Hc|[-> _]]]]; [auto..|]. destruct v as [[m n] nz]. unfold scan_ddd in Hs.
  destruct (scan_d s) as [[u s1]| | |] eqn:H1; try done. cbn [mbind outcome_bind] in Hs.
  destruct (scan_d_numeric s u s1 Hn H1) as [_ [->|Hl]]; [by simplify_eq|].
  destruct u as [| |m']; [by simplify_eq|simplify_eq; auto|].
  destruct (scan_d s1) as [[u s2]| | |]; try done. cbn [mbind outcome_bind] in Hs. destruct u; try done.
  destruct (scan_d s2) as [[u s3]| | |]; try done. cbn [mbind outcome_bind] in Hs. destruct u; done.
Qed.
Theorem C61_returns cs l rest : Forall comment_line cs -> head l <> Some (chr "%") -> Forall (fun c => c <> 10) l -> length l < 1024 -> Forall numeric rest ->
  let f := concat cs ++ l ++ [10] ++ rest in mm_read_mtx_crd_size (S (length f)) f <> Diverge.
Proof.
  intros Hcs Hh Hnl Hlen Hr f. unfold mm_read_mtx_crd_size.
  assert (Hfu : length rest < S (length f)) by (unfold f; rewrite !app_length; lia).
  assert (Hsk : skip_comments (S (length f)) f = Ok (Some (l ++ [10], rest))).
  { apply skip_comments_spec; [done|done|done| |unfold f; lia]. destruct l as [|c l]; [done|]. cbn in Hh |- *. congruence. }
  rewrite Hsk. clear Hsk. generalize dependent (S (length f)). intros fuel Hfu.
  cbn [mbind outcome_bind]. destruct (scan_ddd (c_string (l ++ [10])) (0, 0, 0)%Z) as [[[ret v] s]| | |] eqn:Hs; try done.
  2: { exfalso. revert Hs. unfold scan_ddd. assert (Hnd : forall s, scan_d s <> Diverge).
       { intros s. unfold scan_d. destruct (skip_space s); [done|]. destruct (scan_digits _) as [[[neg n0]|] r]; [|done]. by destruct (_ || _). }
       destruct (scan_d (c_string (l ++ [10]))) as [[u s1]| | |] eqn:H1; cbn [mbind outcome_bind]; try done; [|by intros _; apply (Hnd _ H1)].
       destruct u; try done. destruct (scan_d s1) as [[u s2]| | |] eqn:H2; cbn [mbind outcome_bind]; try done; [|by intros _; apply (Hnd _ H2)].
       destruct u; try done. destruct (scan_d s2) as [[u s3]| | |] eqn:H3; cbn [mbind outcome_bind]; try done; [|by intros _; apply (Hnd _ H3)]. by destruct u. }
  cbn [mbind outcome_bind]. destruct (ret =? 3)%Z; [done|]. clear -Hr Hfu. revert rest v Hr Hfu. induction fuel as [|n IH]; intros rest v Hr Hl; [lia|].
  cbn [size_loop]. destruct (scan_ddd rest v) as [[[ret v'] f']| | |] eqn:Hs; try done.
  - cbn [mbind outcome_bind]. destruct (scan_ddd_numeric _ _ _ _ _ Hr Hs) as [Hn [->|[->|Hlt]]]; [done..|].
    destruct (ret =? -1)%Z; [done|]. destruct (ret =? 3)%Z; [done|]. apply IH; [done|lia].
  - exfalso. destruct v as [[m n0] nz]. revert Hs. unfold scan_ddd. assert (Hnd : forall s, scan_d s <> Diverge).
    { intros s. unfold scan_d. destruct (skip_space s); [done|]. destruct (scan_digits _) as [[[neg n9]|] r]; [|done]. by destruct (_ || _). }
    destruct (scan_d rest) as [[u s1]| | |] eqn:H1; cbn [mbind outcome_bind]; try done; [|by intros _; apply (Hnd _ H1)].
    destruct u; try done. destruct (scan_d s1) as [[u s2]| | |] eqn:H2; cbn [mbind outcome_bind]; try done; [|by intros _; apply (Hnd _ H2)].
    destruct u; try done. destruct (scan_d s2) as [[u s3]| | |] eqn:H3; cbn [mbind outcome_bind]; try done; [|by intros _; apply (Hnd _ H3)]. by destruct u.
Qed.
(** an empty line before a comment *)
Example C61_ex : forall fuel, mm_read_mtx_crd_size fuel ([10] ++ str "% made by hand" ++ [10] ++ str "3 3 2" ++ [10]) = Diverge.
Proof.
  intros fuel. apply (C61_endless_refuted [] [] [] (str "% made by hand" ++ [10] ++ str "3 3 2" ++ [10])); [constructor|apply no_numbers; constructor|constructor|cbn; lia|apply no_numbers; constructor|done].
Qed.
Example C61_ex2 : mm_read_mtx_crd_size 0 (str "% made by hand" ++ [10] ++ str " 3 3  -2 " ++ [10; 49]) = Ok (0%Z, (3, 3, -2)%Z, [49]).
Proof. vm_compute. reflexivity. Qed.
(** a size line broken in two: the reader returns, but not the size meant *)
Example C61_ex3 : let f := concat [] ++ str "3 3" ++ [10] ++ str "2" ++ [10] ++ str "1 1" ++ [10] in
  Forall numeric (str "2" ++ [10] ++ str "1 1" ++ [10]) /\ mm_read_mtx_crd_size (S (length f)) f = Ok (0%Z, (2, 1, 1)%Z, [10]).
Proof. split; [|vm_compute; reflexivity]. unfold numeric. cbn. repeat (apply Forall_cons; split; [auto|]). constructor. Qed.

(** mm_is_valid, the validity test of the library, rejects exactly these named types; the banner
    reader accepts all named types (C59_roundtrip), so also the ones that mm_is_valid rejects *)
Theorem C59_validity t : named t ->
  (mm_is_valid t = false <->
     t_format t = chr "A" /\ t_field t = chr "P" \/ t_field t = chr "R" /\ t_symmetry t = chr "H" \/
     t_field t = chr "P" /\ (t_symmetry t = chr "H" \/ t_symmetry t = chr "K")).
Proof.
  intros (Ho & _). unfold mm_is_valid, mm_is_matrix, mm_is_array, mm_is_pattern, mm_is_real, mm_is_hermitian, mm_is_skew.
  rewrite Ho, Nat.eqb_refl. cbn [negb].
  destruct (Nat.eqb_spec (t_format t) (chr "A")), (Nat.eqb_spec (t_field t) (chr "P")), (Nat.eqb_spec (t_field t) (chr "R")),
    (Nat.eqb_spec (t_symmetry t) (chr "H")), (Nat.eqb_spec (t_symmetry t) (chr "K")); cbn [andb orb]; intuition congruence.
Qed.
Theorem C59_invalid_accepted_refuted : exists f t, mm_read_banner f = Ok (0%Z, t, []) /\ named t /\ mm_is_valid t = false.
Proof.
  exists (str "%%MatrixMarket matrix array pattern skew-symmetric" ++ [10]), (TypeCode (chr "M") (chr "A") (chr "P") (chr "K")).
  split; [vm_compute; reflexivity|]. split; [|done]. repeat split; apply (bool_decide_unpack _); vm_compute; exact Logic.I.
Qed.
