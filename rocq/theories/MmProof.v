(** MmProof.v: Matrix Market text *)
From Verif Require Export TextProof Mm Properties_Io.
From Coq Require Import ZifyNat ZifyBool ZifyN.

Lemma str_eqb_spec a b : str_eqb a b = true <-> a = b.
Proof. unfold str_eqb. by destruct (decide (a = b)). Qed.
Lemma str_eqb_refl a : str_eqb a a = true.
Proof. by apply str_eqb_spec. Qed.

(** ** the banner *)
Lemma sscanf_words_ok n s : Forall (fun w => length w < 64) (take n (words s)) -> sscanf_words n s = Ok (take n (words s)).
Proof.
  revert s. induction n as [|n IH]; intros s Hw; [done|]. cbn [sscanf_words]. unfold scan_s.
  destruct (skip_space s) as [|c r] eqn:Hs; [by rewrite (words_nil s Hs)|].
  pose proof (words_first s c r Hs) as Hf. destruct (span _ (c :: r)) as [w r']. destruct Hf as [Hf _]. rewrite Hf in *. cbn [take] in *.
  apply Forall_cons in Hw as [Hw1 Hw]. unfold MM_MAX_TOKEN_LENGTH. rewrite (proj2 (Nat.leb_gt 64 _)) by done. cbn [mbind outcome_bind].
  rewrite IH by done. done.
Qed.
Lemma sscanf_words_overflow n s : Exists (fun w => 64 <= length w) (take n (words s)) -> sscanf_words n s = Undef BufferOverflow.
Proof.
  revert s. induction n as [|n IH]; intros s Hw; [by inversion Hw|]. cbn [sscanf_words]. unfold scan_s.
  destruct (skip_space s) as [|c r] eqn:Hs; [rewrite (words_nil s Hs) in Hw; by inversion Hw|].
  pose proof (words_first s c r Hs) as Hf. destruct (span _ (c :: r)) as [w r']. destruct Hf as [Hf _]. rewrite Hf in *. cbn [take] in *.
  unfold MM_MAX_TOKEN_LENGTH. destruct (Nat.leb_spec 64 (length w)) as [Hlt|Hge]; [done|]. cbn [mbind outcome_bind].
  apply Exists_cons in Hw as [Hw|Hw]; [lia|]. by rewrite IH.
Qed.
Lemma take_words_dec n s : Forall (fun w => length w < 64) (take n (words s)) \/ Exists (fun w => 64 <= length w) (take n (words s)).
Proof.
  generalize (take n (words s)). intros l. induction l as [|w l [IH|IH]]; [by left| |by right; apply Exists_cons; right].
  destruct (decide (length w < 64)); [left; by constructor|right; apply Exists_cons; left; lia].
Qed.

(** lower case *)
Lemma lower_char_space c : is_space (lower_char c) = is_space c.
Proof. unfold lower_char, is_space. destruct ((65 <=? c) && (c <=? 90)) eqn:Hc; lia. Qed.
Lemma lower_no_spaces s : no_spaces (lower s) <-> no_spaces s.
Proof.
  unfold no_spaces, lower. rewrite Forall_fmap. split; intros Hf; (eapply Forall_impl; [exact Hf|]); intros c Hc; cbn in *; by rewrite lower_char_space in *.
Qed.

(** ** the size line *)
Lemma scan_ddd_len s v ret v' r : scan_ddd s v = Ok (ret, v', r) ->
  (exists a, s = a ++ r) /\ (ret = (-1)%Z \/ ret = 3%Z \/ length r < length s \/ ret = 0%Z /\ v' = v).
Proof.
  destruct v as [[m n] nz]. unfold scan_ddd. intros Hs.
  destruct (scan_d s) as [[a s1]| | |] eqn:H1; try done. cbn [mbind outcome_bind] in Hs. apply scan_d_len in H1 as [(a1 & Ha1) L1].
  destruct a as [| |m']; [injection Hs as <- <- <-; split; [by exists a1|auto]|injection Hs as <- <- <-; split; [by exists a1|auto]|].
  destruct (scan_d s1) as [[b s2]| | |] eqn:H2; try done. cbn [mbind outcome_bind] in Hs. apply scan_d_len in H2 as [(a2 & Ha2) L2].
  assert (Hl2 : length s2 <= length s1) by (rewrite Ha2, app_length; lia).
  assert (Hx2 : s = (a1 ++ a2) ++ s2) by (rewrite Ha1, Ha2; by rewrite <- app_assoc).
  destruct b as [| |n']; [injection Hs as <- <- <-; split; [by eexists|right; right; left; lia]..|].
  destruct (scan_d s2) as [[c s3]| | |] eqn:H3; try done. cbn [mbind outcome_bind] in Hs. apply scan_d_len in H3 as [(a3 & Ha3) L3].
  assert (Hl3 : length s3 <= length s2) by (rewrite Ha3, app_length; lia).
  assert (Hx3 : s = (a1 ++ a2 ++ a3) ++ s3) by (rewrite Ha1, Ha2, Ha3; by rewrite <- !app_assoc).
  destruct c as [| |nz']; injection Hs as <- <- <-; (split; [by eexists|]); [right; right; left; lia..|auto].
Qed.
(** the number of turns given to the loop decides: with one turn per character left over,
    running out of turns means that the loop never ends *)
Lemma size_loop_exact f v : size_loop (S (length f)) f v = Diverge -> forall n, size_loop n f v = Diverge.
Proof.
  assert (Hgen : forall k f v, length f < k -> size_loop k f v = Diverge -> forall n, size_loop n f v = Diverge); [|by apply Hgen; lia].
  clear f v. induction k as [|k IH]; intros f v Hk Hd; [lia|]. intros n.
  cbn [size_loop] in Hd. destruct n as [|n]; [done|]. cbn [size_loop].
  destruct (scan_ddd f v) as [[[ret v'] f']| | |] eqn:Hs; try done. cbn [mbind outcome_bind] in *.
  destruct (Z.eqb_spec ret (-1)) as [->|N1]; [done|]. destruct (Z.eqb_spec ret 3) as [->|N3]; [done|].
  pose proof (scan_ddd_len _ _ _ _ _ Hs) as [(a & Ha) [?|[?|[Hl|[-> ->]]]]]; [done..| |].
  - apply (IH f' v'); [lia|done].
  - destruct a as [|z a].
    + cbn in Ha. subst f'. clear Hd IH Hk. induction n as [|n IHn]; [done|]. cbn [size_loop]. rewrite Hs. cbn [mbind outcome_bind]. exact IHn.
    + apply (IH f' v); [|done]. rewrite Ha in Hk. cbn in Hk. rewrite app_length in Hk. lia.
Qed.
Lemma size_loop_more f v n r : size_loop n f v = r -> r <> Diverge -> forall m, n <= m -> size_loop m f v = r.
Proof.
  revert f v. induction n as [|n IH]; intros f v Hr Hne m Hm; [by subst r|]. destruct m as [|m]; [lia|].
  cbn [size_loop] in *. destruct (scan_ddd f v) as [[[ret v'] f']| | |]; cbn [mbind outcome_bind] in *; try done.
  destruct (ret =? -1)%Z; [done|]. destruct (ret =? 3)%Z; [done|]. apply (IH f' v'); [done|done|lia].
Qed.
Lemma scan_ddd_three w1 w2 w3 t1 t2 t3 a b c s v : spaces w1 -> spaces w2 -> w2 <> [] -> spaces w3 -> w3 <> [] ->
  int_text a t1 -> int_text b t2 -> int_text c t3 -> int_range a -> int_range b -> int_range c -> ends s ->
  scan_ddd (w1 ++ t1 ++ w2 ++ t2 ++ w3 ++ t3 ++ s) v = Ok (3%Z, (a, b, c), s).
Proof.
  intros W1 W2 N2 W3 N3 T1 T2 T3 R1 R2 R3 Hs. unfold scan_ddd. destruct v as [[m n] nz].
  assert (He : forall w r, spaces w -> w <> [] -> ends (w ++ r)) by (intros [|z w] r Hw Hn; [done|]; by apply Forall_cons in Hw as [? _]).
  rewrite (scan_d_int a) by (try done; by apply He). cbn [mbind outcome_bind].
  rewrite (scan_d_int b) by (try done; by apply He). cbn [mbind outcome_bind].
  rewrite (scan_d_int c) by done. done.
Qed.
(** comments *)
Definition comment_line (l : bytes) : Prop := exists t, l = (chr "%" :: t) ++ [10] /\ Forall (fun c => c <> 10) t /\ length l <= 1024.
Lemma fgets_line l r : Forall (fun c => c <> 10) l -> length l < 1024 -> fgets MM_MAX_LINE_LENGTH (l ++ [10] ++ r) = Some (l ++ [10], r).
Proof.
  intros Hl Hn. unfold fgets. change (MM_MAX_LINE_LENGTH - 1) with 1024. destruct (l ++ [10] ++ r) eqn:E; [by destruct l|]. rewrite <- E.
  by rewrite line_of_line.
Qed.
Lemma skip_comments_spec cs line r fuel : Forall comment_line cs -> Forall (fun c => c <> 10) line -> length line < 1024 -> nth 0 (line ++ [10]) 0 <> chr "%" ->
  length (concat cs ++ line ++ [10] ++ r) < fuel ->
  skip_comments fuel (concat cs ++ line ++ [10] ++ r) = Ok (Some (line ++ [10], r)).
Proof.
  intros Hcs Hl Hn Hp. revert fuel. induction Hcs as [|c cs (t & -> & Ht & Hlen) Hcs IH]; intros [|fuel] Hf; try lia; cbn [concat] in *.
  - rewrite app_nil_l. cbn [skip_comments]. rewrite fgets_line by done. by rewrite (proj2 (Nat.eqb_neq _ _) Hp).
  - cbn [skip_comments]. rewrite app_length in Hlen. cbn [length] in Hlen. rewrite <- !app_assoc.
    rewrite (fgets_line (chr "%" :: t)); [|constructor; [done|exact Ht]|cbn [length]; lia].
    rewrite <- app_comm_cons. cbn [nth]. rewrite Nat.eqb_refl. apply IH. rewrite <- !app_assoc, (app_length (chr "%" :: t)) in Hf. cbn [length] in Hf. rewrite (app_length [10]) in Hf. cbn [length] in Hf. lia.
Qed.
Lemma skip_comments_end cs w fuel : Forall comment_line cs -> w = [] -> length (concat cs) < fuel -> skip_comments fuel (concat cs ++ w) = Ok None.
Proof.
  intros Hcs ->. rewrite app_nil_r. revert fuel. induction Hcs as [|c cs (t & -> & Ht & Hlen) Hcs IH]; intros [|fuel] Hf; try lia; [done|].
  cbn [concat] in *. cbn [skip_comments]. rewrite <- app_assoc. rewrite app_length in Hlen. cbn [length] in Hlen.
  rewrite fgets_line; [|constructor; [done|exact Ht]|cbn [length]; lia]. cbn [app nth]. rewrite Nat.eqb_refl. apply IH.
  rewrite !app_length in Hf. cbn in Hf. lia.
Qed.
Lemma skip_comments_ends fuel f : length f < fuel -> exists r, skip_comments fuel f = Ok r.
Proof.
  revert f. induction fuel as [|fuel IH]; intros f Hf; [lia|]. cbn [skip_comments]. assert (Hd : f = [] \/ f <> []) by (destruct f; auto). destruct Hd as [->|Hne]; [eauto|].
  assert (fgets MM_MAX_LINE_LENGTH f = Some (line_of (S 1023) f)) as -> by (by destruct f).
  pose proof (line_of_shorter 1023 f Hne) as Hs. destruct (line_of (S 1023) f) as [line r].
  destruct (nth 0 line 0 =? chr "%"); [|eauto]. apply IH. cbn in Hs. lia.
Qed.
