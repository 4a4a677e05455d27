(** TextProof.v: facts about Text.v *)
From Verif Require Export Text.
From Coq Require Import ZifyNat ZifyBool ZifyN.

(** ** Specification: the words of a text are its maximal runs of characters that are no spaces *)
Fixpoint words_from (cur s : bytes) : list bytes :=
  match s with
  | [] => match cur with [] => [] | _ => [cur] end
  | c :: s' => if is_space c then match cur with [] => words_from [] s' | _ => cur :: words_from [] s' end
               else words_from (cur ++ [c]) s'
  end.
Definition words (s : bytes) : list bytes := words_from [] s.
Definition spaces (s : bytes) : Prop := Forall (fun c => is_space c = true) s.
Definition no_spaces (s : bytes) : Prop := Forall (fun c => is_space c = false) s.
(** nothing follows, or a space does *)
Definition ends (s : bytes) : Prop := match s with [] => True | c :: _ => is_space c = true end.

Lemma skip_spaces_app w s : spaces w -> skip_space (w ++ s) = skip_space s.
Proof. induction 1 as [|c w Hc Hw IH]; [done|]. cbn. by rewrite Hc. Qed.
Lemma skip_space_stop c s : is_space c = false -> skip_space (c :: s) = c :: s.
Proof. intros Hc. cbn. by rewrite Hc. Qed.
Lemma skip_space_spec s : exists w, spaces w /\ s = w ++ skip_space s /\ (skip_space s = [] \/ exists c r, skip_space s = c :: r /\ is_space c = false).
Proof.
  induction s as [|c s (w & Hw & Hs & Hh)]; [exists []; split; [constructor|]; auto|]. cbn. destruct (is_space c) eqn:Hc.
  - exists (c :: w). split; [by constructor|]. split; [cbn; by f_equal|done].
  - exists []. split; [constructor|]. split; [done|]. right. eauto.
Qed.
Lemma skip_space_idem s : skip_space (skip_space s) = skip_space s.
Proof. destruct (skip_space_spec s) as (w & _ & _ & [->|(c & r & -> & Hc)]); [done|]. by apply skip_space_stop. Qed.
Lemma skip_space_nil w : spaces w -> skip_space w = [].
Proof. intros Hw. rewrite <- (app_nil_r w). by rewrite skip_spaces_app. Qed.
Lemma skip_space_length s : length (skip_space s) <= length s.
Proof. destruct (skip_space_spec s) as (w & _ & Hs & _). rewrite Hs at 2. rewrite app_length. lia. Qed.

Lemma span_spec p s : let '(a, r) := span p s in s = a ++ r /\ Forall (fun c => p c = true) a /\ match r with [] => True | c :: _ => p c = false end.
Proof.
  induction s as [|c s IH]; cbn; [by repeat constructor|]. destruct (p c) eqn:Hc; [|by repeat constructor].
  destruct (span p s) as [a r]. destruct IH as (-> & Ha & Hr). split; [done|]. split; [by constructor|done].
Qed.
Lemma span_app p a s : Forall (fun c => p c = true) a -> match s with [] => True | c :: _ => p c = false end -> span p (a ++ s) = (a, s).
Proof.
  intros Ha Hs. induction Ha as [|c a Hc Ha IH]; cbn; [destruct s; [done|]; cbn; by rewrite Hs|]. by rewrite Hc, IH.
Qed.

Lemma words_skip s : words (skip_space s) = words s.
Proof. induction s as [|c s IH]; [done|]. cbn [skip_space]. destruct (is_space c) eqn:Hc; [|done]. rewrite IH. unfold words. cbn. by rewrite Hc. Qed.
Lemma words_from_run cur a s : no_spaces a -> words_from cur (a ++ s) = words_from (cur ++ a) s.
Proof.
  intros Ha. revert cur. induction Ha as [|c a Hc Ha IH]; intros cur; [by rewrite app_nil_r|]. cbn. rewrite Hc, IH. by rewrite <- app_assoc.
Qed.
(** the first word *)
Lemma words_cons a s : no_spaces a -> a <> [] -> ends s -> words (a ++ s) = a :: words s.
Proof.
  intros Ha Hne Hs. unfold words. rewrite words_from_run by done. cbn [app]. destruct s as [|c s]; cbn; [by destruct a|].
  cbn in Hs. rewrite Hs. by destruct a.
Qed.
Lemma words_first s c r : skip_space s = c :: r ->
  let '(w, r') := span (fun c => negb (is_space c)) (c :: r) in words s = w :: words r' /\ w <> [].
Proof.
  intros Hs. destruct (skip_space_spec s) as (w0 & _ & _ & [He|(c' & r0 & He & Hc)]); rewrite Hs in He; [done|]. injection He as <- <-.
  pose proof (span_spec (fun c => negb (is_space c)) (c :: r)) as Hsp. rewrite <- (words_skip s), Hs.
  cbn [span] in *. rewrite Hc in *. cbn [negb] in *. destruct (span _ r) as [a r']. destruct Hsp as (Heq & Ha & Hr').
  split; [|done]. rewrite Heq. apply words_cons; [|done|].
  - eapply Forall_impl; [exact Ha|]. intros z Hz. by apply negb_true_iff in Hz.
  - destruct r' as [|z r']; [done|]. cbn in Hr' |- *. by apply negb_false_iff in Hr'.
Qed.
Lemma words_nil s : skip_space s = [] -> words s = [].
Proof. intros Hs. by rewrite <- words_skip, Hs. Qed.
Lemma words_elem_len s w : w ∈ words s -> w <> [] /\ length w <= length s.
Proof.
  assert (Hgen : forall cur, w ∈ words_from cur s -> w <> [] /\ length w <= length cur + length s).
  { induction s as [|c s IH]; intros cur Hw; cbn in Hw.
    - destruct cur; [by apply elem_of_nil in Hw|]. apply elem_of_list_singleton in Hw as ->. cbn. split; [done|lia].
    - destruct (is_space c).
      + destruct cur as [|z cur].
        * apply IH in Hw as [? ?]. cbn in *. split; [done|lia].
        * apply elem_of_cons in Hw as [->|Hw]; [split; [done|cbn; lia]|]. apply IH in Hw as [? ?]. cbn in *. split; [done|lia].
      + apply IH in Hw as [? Hw]. rewrite app_length in Hw. cbn in *. split; [done|lia]. }
  apply Hgen.
Qed.

(** ** lines *)
Lemma line_of_app n f : let '(l, r) := line_of n f in f = l ++ r.
Proof.
  revert f. induction n as [|n IH]; intros [|c f]; cbn; [done..|]. destruct (c =? 10); [done|].
  specialize (IH f). destruct (line_of n f). cbn. by f_equal.
Qed.
(** a line that fits *)
Lemma line_of_line n l r : Forall (fun c => c <> 10) l -> length l < n -> line_of n (l ++ [10] ++ r) = (l ++ [10], r).
Proof.
  intros Hl. revert n. induction Hl as [|c l Hc Hl IH]; intros [|n] Hn; cbn in *; [lia|done|lia|].
  rewrite (proj2 (Nat.eqb_neq c 10)) by done. by rewrite IH by lia.
Qed.
Lemma line_of_length n f : length (line_of n f).2 <= length f.
Proof. pose proof (line_of_app n f) as Hl. destruct (line_of n f) as [l r]. subst f. rewrite app_length. cbn. lia. Qed.
Lemma line_of_shorter n f : f <> [] -> length (line_of (S n) f).2 < length f.
Proof.
  destruct f as [|c f]; [done|]. intros _. cbn. destruct (c =? 10); cbn; [lia|].
  pose proof (line_of_length n f). destruct (line_of n f). cbn in *. lia.
Qed.
Lemma c_string_line l : Forall (fun c => c <> 0) l -> c_string l = l.
Proof.
  intros Hl. unfold c_string. rewrite <- (app_nil_r l) at 1. rewrite span_app; [done| |done].
  eapply Forall_impl; [exact Hl|]. intros c Hc. apply negb_true_iff, Nat.eqb_neq. exact Hc.
Qed.

(** ** numbers *)
Definition digits (l : bytes) : Prop := Forall (fun c => is_digit c = true) l.
Lemma dec_val_app a b : dec_val (a ++ b) = (dec_val a * 10 ^ N.of_nat (length b) + dec_val b)%N.
Proof.
  unfold dec_val. rewrite fold_left_app. generalize (fold_left (fun a c => 10 * a + N.of_nat (c - 48))%N a 0%N). intros x.
  cut (forall b x, fold_left (fun a c => 10 * a + N.of_nat (c - 48))%N b x = (x * 10 ^ N.of_nat (length b) + fold_left (fun a c => 10 * a + N.of_nat (c - 48))%N b 0)%N); [done|].
  clear. induction b as [|c b IH]; intros x; [cbn; lia|]. cbn [fold_left length]. rewrite IH, (IH (10 * 0 + _)%N).
  rewrite Nat2N.inj_succ, N.pow_succ_r'. lia.
Qed.
Lemma dec_val_snoc a c : dec_val (a ++ [c]) = (10 * dec_val a + N.of_nat (c - 48))%N.
Proof. unfold dec_val. by rewrite fold_left_app. Qed.
Lemma dec_fuel_spec fuel n : (N.size_nat n < fuel)%nat -> digits (dec_fuel fuel n) /\ dec_val (dec_fuel fuel n) = n /\ dec_fuel fuel n <> [].
Proof.
  revert n. induction fuel as [|f IH]; intros n Hn; [lia|]. cbn [dec_fuel].
  assert (Hd : is_digit (48 + N.to_nat (n mod 10)) = true).
  { unfold is_digit. assert (n mod 10 < 10)%N by (apply N.mod_lt; lia). lia. }
  assert (Hm : N.of_nat (48 + N.to_nat (n mod 10) - 48) = (n mod 10)%N) by lia.
  destruct (N.ltb_spec n 10) as [Hlt|Hge].
  - split; [by repeat constructor|]. split; [|done]. cbn [app]. unfold dec_val. cbn [fold_left]. rewrite Hm, N.mod_small by lia. lia.
  - destruct (IH (n / 10)%N) as (D1 & D2 & D3).
    { assert (n / 10 < n)%N by (apply N.div_lt; lia). assert (Hh : (n / 10 <= N.div2 n)%N).
      { rewrite N.div2_div. apply N.div_le_compat_l. lia. }
      assert (Hs : N.size_nat (n / 10) <= N.size_nat (N.div2 n)).
      { assert (forall a b, (a <= b)%N -> N.size_nat a <= N.size_nat b) as Hmono; [|by apply Hmono].
        clear. intros a b Hab. assert (Hz : forall x, N.of_nat (N.size_nat x) = N.size x) by (intros [|p]; [done|]; cbn; induction p; cbn in *; lia).
        enough (N.size a <= N.size b)%N by (pose proof (Hz a); pose proof (Hz b); lia).
        destruct a as [|a]; [destruct b; cbn; lia|]. destruct b as [|b]; [lia|]. rewrite !N.size_log2 by lia. apply N.log2_le_mono in Hab. lia. }
      assert (Hs2 : N.size_nat (N.div2 n) < N.size_nat n) by (clear - Hge; destruct n as [|[p|p|]]; cbn; lia). lia. }
    split; [apply Forall_app; split; [done|by repeat constructor]|]. rewrite dec_val_snoc, Hm, D2. split; [|by destruct (dec_fuel f (n / 10))].
    rewrite (N.div_mod n 10) at 3 by lia. lia.
Qed.
Lemma print_dec_spec n : digits (print_dec n) /\ dec_val (print_dec n) = n /\ print_dec n <> [].
Proof. apply dec_fuel_spec. lia. Qed.
Lemma digit_not_space c : is_digit c = true -> is_space c = false.
Proof. unfold is_digit, is_space. lia. Qed.
Lemma digit_not_sign c : is_digit c = true -> (c =? 45) = false /\ (c =? 43) = false.
Proof. unfold is_digit. lia. Qed.

Lemma scan_digits_ok (d s : bytes) : digits d -> d <> [] -> ends s -> scan_digits (d ++ s) = (Some (false, dec_val d), s).
Proof.
  intros Hd Hne Hs. destruct d as [|c d]; [done|]. apply Forall_cons in Hd as [Hc Hd]. unfold scan_digits. cbn [app].
  destruct (digit_not_sign c Hc) as [-> ->]. rewrite (app_comm_cons d s c), span_app; [done|by constructor|].
  destruct s as [|z s]; [done|]. cbn in Hs. destruct (is_digit z) eqn:Hz; [|done]. apply digit_not_space in Hz. congruence.
Qed.
Lemma scan_digits_neg (d s : bytes) : digits d -> d <> [] -> ends s -> scan_digits (45 :: d ++ s) = (Some (true, dec_val d), s).
Proof.
  intros Hd Hne Hs. unfold scan_digits. cbn [Nat.eqb]. rewrite span_app; [by destruct d|done|].
  destruct s as [|z s]; [done|]. cbn in Hs. destruct (is_digit z) eqn:Hz; [|done]. apply digit_not_space in Hz. congruence.
Qed.
(** what is left is a suffix; a conversion that succeeds has consumed something *)
Lemma scan_digits_len s v r : scan_digits s = (v, r) -> length r <= length s /\ (v <> None -> length r < length s) /\ exists a, s = a ++ r.
Proof.
  unfold scan_digits. intros Hs.
  assert (Hgen : forall neg s0 a0, s = a0 ++ s0 -> (let '(d, r0) := span is_digit s0 in
    match d with [] => (None, r0) | _ => (Some (neg, dec_val d), r0) end) = (v, r) -> length r <= length s /\ (v <> None -> length r < length s) /\ exists a, s = a ++ r).
  { intros neg s0 a0 -> Hq. pose proof (span_spec is_digit s0) as Hsp. destruct (span is_digit s0) as [d r0]. destruct Hsp as (-> & _ & _).
    rewrite !app_length. destruct d as [|c d]; injection Hq as <- <-; cbn; (split; [lia|]; split; [intros; try done; lia|]); [by exists a0|].
    exists (a0 ++ c :: d). by rewrite <- app_assoc. }
  destruct s as [|c s]; [by apply (Hgen false [] [])|]. destruct (c =? 45); [by apply (Hgen true s [c])|]. destruct (c =? 43); [by apply (Hgen false s [c])|].
  by apply (Hgen false (c :: s) []).
Qed.

(** numerals *)
Definition num_text (n : N) (t : bytes) : Prop := digits t /\ t <> [] /\ dec_val t = n.
Lemma num_text_print n : num_text n (print_dec n).
Proof. destruct (print_dec_spec n) as (H1 & H2 & H3). done. Qed.
Lemma num_text_skip n t s : num_text n t -> skip_space (t ++ s) = t ++ s /\ t ++ s <> [].
Proof.
  intros (Hd & Hne & _). destruct t as [|c t]; [done|]. apply Forall_cons in Hd as [Hc _]. split; [|done].
  cbn [app]. apply skip_space_stop. by apply digit_not_space.
Qed.
Lemma scan_lu_num n w t s : spaces w -> num_text n t -> (n <= ulong_max)%N -> ends s -> scan_lu (w ++ t ++ s) = Ok (Got n, s).
Proof.
  intros Hw Ht Hn Hs. unfold scan_lu. rewrite skip_spaces_app by done. destruct (num_text_skip n t s Ht) as [-> Hne].
  destruct (t ++ s) eqn:Hts; [done|]. rewrite <- Hts. destruct Ht as (Hd & Hne' & <-). rewrite scan_digits_ok by done.
  by rewrite (proj2 (N.ltb_ge _ _)).
Qed.
(** integers: digits with or without a sign *)
Definition int_text (z : Z) (t : bytes) : Prop :=
  exists d, digits d /\ d <> [] /\ ((t = d /\ z = Z.of_N (dec_val d)) \/ (t = 43 :: d /\ z = Z.of_N (dec_val d)) \/ (t = 45 :: d /\ z = (- Z.of_N (dec_val d))%Z)).
Definition int_range (z : Z) : Prop := (- int_max - 1 <= z <= int_max)%Z.
Lemma int_text_print z : int_text z (print_int z).
Proof.
  unfold print_int. destruct (Z.ltb_spec z 0) as [Hz|Hz].
  - destruct (print_dec_spec (Z.to_N (- z))) as (H1 & H2 & H3). eexists. split; [exact H1|]. split; [exact H3|]. right. right. split; [done|]. rewrite H2. lia.
  - destruct (print_dec_spec (Z.to_N z)) as (H1 & H2 & H3). eexists. split; [exact H1|]. split; [exact H3|]. left. split; [done|]. rewrite H2. lia.
Qed.
Lemma int_text_facts z t : int_text z t -> no_spaces t /\ t <> [] /\ Forall (fun c => c <> 10 /\ c <> 0 /\ c <> 37) t.
Proof.
  intros (d & Hd & Hne & Ht).
  assert (Hns : Forall (fun c => is_space c = false /\ c <> 10 /\ c <> 0 /\ c <> 37) d).
  { eapply Forall_impl; [exact Hd|]. intros c Hc. unfold is_digit, is_space in *. lia. }
  assert (H : Forall (fun c => is_space c = false /\ c <> 10 /\ c <> 0 /\ c <> 37) t /\ t <> []).
  { destruct Ht as [[-> _]|[[-> _]|[-> _]]]; [done|split; [|done]; constructor; [done|done]..]. }
  destruct H as [H Ht']. split; [eapply Forall_impl; [exact H|]; naive_solver|]. split; [done|]. eapply Forall_impl; [exact H|]. naive_solver.
Qed.
Lemma scan_d_int z w t s : spaces w -> int_text z t -> int_range z -> ends s -> scan_d (w ++ t ++ s) = Ok (Got z, s).
Proof.
  intros Hw Ht Hz Hs. unfold scan_d. rewrite skip_spaces_app by done.
  destruct (int_text_facts z t Ht) as (Hns & Hne & _). assert (Hsk : skip_space (t ++ s) = t ++ s).
  { destruct t as [|c t]; [done|]. apply Forall_cons in Hns as [Hc _]. cbn [app]. by apply skip_space_stop. }
  rewrite Hsk. destruct (t ++ s) eqn:Hts; [by destruct t|]. rewrite <- Hts. clear Hts Hsk Hne Hns. unfold int_range in Hz.
  assert (Hr : (int_max <? z)%Z || (z <? - int_max - 1)%Z = false) by lia.
  destruct Ht as (d & Hd & Hne & [[-> ->]|[[-> ->]|[-> ->]]]).
  - rewrite scan_digits_ok by done. by rewrite Hr.
  - assert (scan_digits ((43 :: d) ++ s) = (Some (false, dec_val d), s)) as ->; [|by rewrite Hr].
    unfold scan_digits. cbn [app Nat.eqb]. rewrite span_app; [by destruct d|done|].
    destruct s as [|q s]; [done|]. cbn in Hs. destruct (is_digit q) eqn:Hq; [|done]. apply digit_not_space in Hq. congruence.
  - cbn [app]. rewrite scan_digits_neg by done. by rewrite Hr.
Qed.
(** a character that begins no number stops %d and %lu *)
Definition no_number (s : bytes) : Prop := match s with [] => False | c :: _ => is_space c = false /\ is_digit c = false /\ c <> 45 /\ c <> 43 end.
Lemma scan_digits_stuck s : no_number s -> scan_digits s = (None, s).
Proof.
  destruct s as [|c s]; [done|]. intros (H1 & H2 & H3 & H4). unfold scan_digits.
  rewrite (proj2 (Nat.eqb_neq c 45)), (proj2 (Nat.eqb_neq c 43)) by done. cbn [span]. by rewrite H2.
Qed.
Lemma scan_d_stuck w s : spaces w -> no_number s -> scan_d (w ++ s) = Ok (NoMatch, s).
Proof.
  intros Hw Hs. unfold scan_d. rewrite skip_spaces_app by done. destruct s as [|c s]; [done|].
  rewrite (skip_space_stop c s) by apply Hs. by rewrite scan_digits_stuck.
Qed.
Lemma scan_d_end w : spaces w -> scan_d w = Ok (AtEnd, []).
Proof. intros Hw. unfold scan_d. by rewrite skip_space_nil. Qed.
Lemma scan_lu_end w : spaces w -> scan_lu w = Ok (AtEnd, []).
Proof. intros Hw. unfold scan_lu. by rewrite skip_space_nil. Qed.
(** after a conversion the rest is a suffix, shorter if the conversion succeeded; if nothing
    at all was consumed it was no match *)
Lemma scan_d_len s v r : scan_d s = Ok (v, r) -> (exists a, s = a ++ r) /\ match v with Got _ => length r < length s | _ => True end.
Proof.
  unfold scan_d. destruct (skip_space_spec s) as (w & _ & Hs & _). destruct (skip_space s) as [|c s'] eqn:Hsk.
  - intros [= <- <-]. split; [by exists s; rewrite app_nil_r|done].
  - destruct (scan_digits (c :: s')) as [[[neg n]|] r0] eqn:Hd; apply scan_digits_len in Hd as (_ & Hd & a & Ha).
    + destruct (_ || _); [done|]. intros [= <- <-]. split; [exists (w ++ a); rewrite Hs, Ha; by rewrite <- app_assoc|].
      rewrite Hs, app_length. specialize (Hd ltac:(done)). lia.
    + intros [= <- <-]. split; [|done]. exists (w ++ a). rewrite Hs, Ha. by rewrite <- app_assoc.
Qed.
