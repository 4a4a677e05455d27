(** Mm3Proof.v: Matrix Market files whose body is not a list of complete entries: broken off
    inside an entry, or with a word that is no number (the loops of read_mm_COO,
    include/io/input.h:87-123) *)
From Verif Require Export Mm2Proof.
From Coq Require Import ZifyNat ZifyBool ZifyN.

Section tails.
  Context {T : Type} `{Widths} (scan_g : bytes -> option T * bytes).
  Implicit Types (e : N * N * T) (l : list (N * N * T)).
  (** the variables r, c and val after an entry *)
  Definition vars_of e : vars (T := T) := (Some e.1.1, Some e.1.2, Some e.2).
  Notation data_cond bound := (fun '(stop, i, _, _, _) => Ok (match stop with None => i <? bound | Some _ => false end)).
  Notation count_cond n := (fun '(stop, i, _, _, _) => Ok (negb stop && (i <? n))).

  Lemma stored_length sym e : 1 <= length (stored sym e) <= 2.
  Proof. unfold stored. cbn [length]. destruct (_ && _); cbn [length]; lia. Qed.
  Lemma last_of_cons e l : exists z, last (e :: l) = Some z.
  Proof. revert e. induction l as [|e2 l IH]; intros e; [by exists e|]. rewrite last_cons_cons. apply IH. Qed.
  (** the second pass over the complete entries *)
  Lemma data_run sym bound l : forall D f f0 rest v fuel, entries_text scan_g l f0 rest -> Forall readable l -> skip_space f = skip_space f0 ->
    length (D ++ flat_map (stored sym) l) <= bound -> S (bound - length D) < fuel ->
    exists fuel' f', S (bound - length (D ++ flat_map (stored sym) l)) < fuel' /\ skip_space f' = skip_space rest /\
      while_ fuel (data_cond bound) (data_step scan_g sym) (None, length D, parts D bound, v, f) =
      while_ fuel' (data_cond bound) (data_step scan_g sym) (None, length (D ++ flat_map (stored sym) l), parts (D ++ flat_map (stored sym) l) bound, match last l with Some e => vars_of e | None => v end, f').
  Proof.
    induction l as [|e l IH]; intros D f f0 rest v fuel He Hr Hf Hle Hfuel; inversion He; subst.
    - cbn [flat_map] in *. rewrite app_nil_r in *. exists fuel, f. done.
    - apply Forall_cons in Hr as [Hr1 Hr]. cbn [flat_map] in *. rewrite app_assoc in *.
      destruct fuel as [|fuel]; [lia|]. cbn [while_ mbind outcome_bind]. pose proof (stored_length sym e) as Hse.
      assert (Hd : length (D ++ stored sym e) <= bound) by (rewrite app_length in Hle; lia).
      assert (Hd1 : length D < length (D ++ stored sym e)) by (rewrite app_length; lia).
      rewrite (proj2 (Nat.ltb_lt (length D) bound)) by lia. rewrite (data_step_ok scan_g sym D bound e t f1) by done. cbn [mbind outcome_bind].
      destruct (IH (D ++ stored sym e) (skip_space f1) f1 rest (vars_of e) fuel) as (fuel' & f' & G1 & G2 & G3); [done|done|by rewrite skip_space_idem|done|lia|].
      exists fuel', f'. split; [done|]. split; [done|]. etransitivity; [exact G3|]. destruct l as [|e2 l]; [done|]. rewrite last_cons_cons. by destruct (last_of_cons e2 l) as [z ->].
  Qed.
  Lemma count_run n l : forall i k f f0 rest v fuel, entries_text scan_g l f0 rest -> Forall readable l -> skip_space f = skip_space f0 ->
    i + length l <= n -> S (n - i) < fuel ->
    exists fuel' f', S (n - (i + length l)) < fuel' /\ skip_space f' = skip_space rest /\
      while_ fuel (count_cond n) (count_step scan_g) (false, i, k, v, f) =
      while_ fuel' (count_cond n) (count_step scan_g) (false, i + length l, (k + sum_count l)%N, match last l with Some e => vars_of e | None => v end, f').
  Proof.
    induction l as [|e l IH]; intros i k f f0 rest v fuel He Hr Hf Hle Hfuel; inversion He; subst; cbn [length sum_count] in *.
    - rewrite Nat.add_0_r, N.add_0_r in *. exists fuel, f. done.
    - apply Forall_cons in Hr as [Hr1 Hr]. destruct fuel as [|fuel]; [lia|]. cbn [while_ mbind outcome_bind negb andb].
      rewrite (proj2 (Nat.ltb_lt i n)) by lia. rewrite (count_step_ok scan_g i k e t f1) by done. cbn [mbind outcome_bind]. rewrite N.add_assoc.
      destruct (IH (i + 1) (k + entry_count e)%N (skip_space f1) f1 rest (vars_of e) fuel) as (fuel' & f' & G1 & G2 & G3); [done|done|by rewrite skip_space_idem|lia|lia|].
      replace (i + S (length l)) with (i + 1 + length l) by lia.
      exists fuel', f'. split; [done|]. split; [done|]. etransitivity; [exact G3|]. destruct l as [|e2 l]; [done|]. rewrite last_cons_cons. by destruct (last_of_cons e2 l) as [z ->].
  Qed.

  (** ** one step that leaves the entry e in the variables *)
  Lemma data_step_to sym D n e ret f f' v : scan_entry scan_g f v = Ok (ret, vars_of e, f') -> ret <> (-1)%Z -> length (D ++ stored sym e) <= n ->
    data_step scan_g sym (None, length D, parts D n, v, f) = Ok (None, length (D ++ stored sym e), parts (D ++ stored sym e) n, vars_of e, f').
  Proof.
    intros Hs Hret Hn. unfold data_step. rewrite Hs. unfold vars_of. cbn [mbind outcome_bind]. rewrite (proj2 (Z.eqb_neq ret (-1)) Hret).
    unfold stored in *. destruct e as [[r c] x]. cbn [fst snd] in *. unfold parts at 1. cbn [mbind outcome_bind use].
    rewrite app_length in Hn. cbn [length] in Hn.
    pose proof (set_point_parts D n (Elem (index_of r) (index_of c) x 0)) as Hp. cbn [row col val] in Hp. rewrite Hp by lia. clear Hp. cbn [mbind outcome_bind].
    destruct (sym && negb (r =? c)%N); cbn [length] in Hn.
    - unfold parts at 1. assert (Hl : length D + 1 = length (D ++ [Elem (index_of r) (index_of c) x 0])) by (by rewrite app_length).
      rewrite Hl. pose proof (set_point_parts (D ++ [Elem (index_of r) (index_of c) x 0]) n (Elem (index_of c) (index_of r) x 0)) as Hp.
      cbn [row col val] in Hp. rewrite Hp by (rewrite app_length; cbn [length]; lia). cbn [mbind outcome_bind].
      rewrite <- !app_assoc. cbn [app]. rewrite !app_length. cbn [length]. do 5 f_equal. lia.
    - rewrite !app_length. cbn [length]. done.
  Qed.
  Lemma count_step_to i k e ret f f' v : scan_entry scan_g f v = Ok (ret, vars_of e, f') -> ret <> (-1)%Z ->
    count_step scan_g (false, i, k, v, f) = Ok (false, i + 1, (k + entry_count e)%N, vars_of e, f').
  Proof.
    intros Hs Hret. unfold count_step. rewrite Hs. unfold vars_of. cbn [mbind outcome_bind use]. rewrite (proj2 (Z.eqb_neq ret (-1)) Hret).
    unfold entry_count. by destruct (e.1.1 =? e.1.2)%N.
  Qed.

  (** ** a file broken off inside an entry *)
  (** t is the beginning of an entry, without its value or without column and value too; e is
      the entry with these taken from p *)
  Definition broken_text (p e : N * N * T) (t : bytes) : Prop :=
    exists w0 r tr w, spaces w0 /\ num_text r tr /\ spaces w /\
      ((t = w0 ++ tr ++ w /\ e = (r, p.1.2, p.2)) \/
       (exists w1 c tc, spaces w1 /\ w1 <> [] /\ num_text c tc /\ t = w0 ++ tr ++ w1 ++ tc ++ w /\ e = (r, c, p.2))).
  Lemma spaces_ends' w : spaces w -> ends w.
  Proof. destruct 1; done. Qed.
  Lemma scan_entry_broken p e t : broken_text p e t -> readable e -> exists ret, ret <> (-1)%Z /\ scan_entry scan_g t (vars_of p) = Ok (ret, vars_of e, []).
  Proof.
    intros (w0 & r & tr & w & W0 & Tr & W & Hc) [R1 R2]. unfold scan_entry, vars_of. destruct Hc as [[-> ->]|(w1 & c & tc & W1 & N1 & Tc & -> & ->)]; cbn [fst snd] in *.
    - exists 1%Z. split; [done|]. rewrite (scan_lu_num r) by (try done; by apply spaces_ends'). cbn [mbind outcome_bind]. by rewrite (scan_lu_end w).
    - exists 2%Z. split; [done|]. rewrite (scan_lu_num r) by (try done; by apply spaces_ends). cbn [mbind outcome_bind].
      rewrite (scan_lu_num c) by (try done; by apply spaces_ends'). cbn [mbind outcome_bind]. by rewrite skip_space_nil.
  Qed.
  Lemma data_pass_broken sym bound l p e f t v : entries_text scan_g l f t -> Forall readable (l ++ [e]) -> last l = Some p -> broken_text p e t ->
    length (flat_map (stored sym) (l ++ [e])) <= bound ->
    data_pass scan_g sym bound f v = Ok (length (flat_map (stored sym) (l ++ [e])), parts (flat_map (stored sym) (l ++ [e])) bound).
  Proof.
    intros He [Hr Hre]%Forall_app Hp Hb Hle. apply Forall_cons in Hre as [Hre _]. rewrite flat_map_app in *. cbn [flat_map] in *. rewrite app_nil_r in *. unfold data_pass.
    pose proof (stored_length sym e) as Hse. pose proof Hle as Hle'. rewrite app_length in Hle'.
    destruct (data_run sym bound l [] f f t v (S (S bound)) He Hr eq_refl) as (fuel & f' & G1 & G2 & G3); [cbn [app]; lia|cbn [length]; lia|].
    unfold parts at 1 in G3. cbn [fmap list_fmap] in G3. rewrite !part_nil in G3. cbn [length app] in G1, G3. rewrite Hp in G3.
    assert (G4 : exists stop i v' f'', while_ fuel (data_cond bound) (data_step scan_g sym) (None, length (flat_map (stored sym) l), parts (flat_map (stored sym) l) bound, vars_of p, f') =
      Ok (stop, i, parts (flat_map (stored sym) l ++ stored sym e) bound, v', f'') /\ match stop with Some n => n | None => bound end = length (flat_map (stored sym) l ++ stored sym e)).
    { destruct fuel as [|fuel]; [lia|]. cbn [while_ mbind outcome_bind]. rewrite (proj2 (Nat.ltb_lt _ bound)) by lia.
      destruct (scan_entry_broken p e t Hb Hre) as (ret & Hret & Hs). rewrite <- scan_entry_skip, <- G2, scan_entry_skip in Hs.
      rewrite (data_step_to sym _ bound e ret f' []) by done. cbn [mbind outcome_bind]. destruct fuel as [|fuel]; [lia|]. cbn [while_ mbind outcome_bind].
      destruct (Nat.ltb_spec (length (flat_map (stored sym) l ++ stored sym e)) bound) as [Hd|Hd].
      - rewrite data_step_end by constructor. cbn [mbind outcome_bind]. destruct fuel as [|fuel]; [lia|]. cbn [while_ mbind outcome_bind]. by do 4 eexists.
      - do 4 eexists. split; [done|]. cbn. lia. }
    destruct G4 as (stop & i & v' & f'' & G4 & Hs). rewrite G3, G4. cbn [mbind outcome_bind]. by rewrite Hs.
  Qed.
  Lemma sum_count_app l1 l2 : sum_count (l1 ++ l2) = (sum_count l1 + sum_count l2)%N.
  Proof. induction l1 as [|e l1 IH]; [done|]. cbn [app sum_count]. rewrite IH. lia. Qed.
  Lemma count_pass_broken nnz l p e f t : entries_text scan_g l f t -> Forall readable (l ++ [e]) -> last l = Some p -> broken_text p e t ->
    (2 * nnz <= int_max)%Z -> (0 <= nnz)%Z -> int_to_index (2 * nnz) = Z.to_nat (2 * nnz) -> length (l ++ [e]) <= Z.to_nat (2 * nnz) ->
    exists v, count_pass scan_g nnz f = Ok (sum_count (l ++ [e]), v).
  Proof.
    intros He [Hr Hre]%Forall_app Hp Hb Hn Hpos Hi Hle. apply Forall_cons in Hre as [Hre _]. rewrite app_length in Hle. cbn [length] in Hle. unfold count_pass.
    rewrite (proj2 (Z.ltb_ge _ _) Hn), (proj2 (Z.ltb_ge _ _)) by (unfold int_max; lia). cbn [orb]. rewrite Hi. set (n := Z.to_nat (2 * nnz)) in *.
    destruct (count_run n l 0 0%N f f t (None, None, None) (S (S n)) He Hr eq_refl) as (fuel & f' & G1 & G2 & G3); [lia|lia|]. rewrite Hp in G3. cbn [Nat.add N.add] in G1, G3.
    assert (G4 : exists stop i v' f'', while_ fuel (count_cond n) (count_step scan_g) (false, length l, sum_count l, vars_of p, f') = Ok (stop, i, sum_count (l ++ [e]), v', f'')).
    { destruct fuel as [|fuel]; [lia|]. cbn [while_ mbind outcome_bind negb andb]. rewrite (proj2 (Nat.ltb_lt _ n)) by lia.
      destruct (scan_entry_broken p e t Hb Hre) as (ret & Hret & Hs). rewrite <- scan_entry_skip, <- G2, scan_entry_skip in Hs.
      rewrite (count_step_to _ _ e ret f' []) by done. cbn [mbind outcome_bind]. destruct fuel as [|fuel]; [lia|]. cbn [while_ mbind outcome_bind negb andb].
      rewrite sum_count_app. cbn [sum_count]. rewrite N.add_0_r.
      destruct (Nat.ltb_spec (length l + 1) n) as [Hd|Hd]; [|by do 4 eexists].
      rewrite count_step_end by constructor. cbn [mbind outcome_bind]. destruct fuel as [|fuel]; [lia|]. cbn [while_ mbind outcome_bind negb andb]. by do 4 eexists. }
    destruct G4 as (stop & i & v' & f'' & G4). exists v'. etransitivity; [apply (f_equal (fun o => o ≫= _)); etransitivity; [exact G3|exact G4]|]. done.
  Qed.

  (** ** a word that is no number *)
  (** after white space, t goes on with a character that no number begins with *)
  Definition stuck (t : bytes) : Prop := exists w c s, t = w ++ c :: s /\ spaces w /\ is_space c = false /\ is_digit c = false /\ c <> 43 /\ c <> 45.
  Lemma stuck_skip t f : stuck t -> skip_space f = skip_space t -> stuck f.
  Proof.
    intros (w & c & s & -> & Hw & Hc & Hr) Hf. rewrite skip_spaces_app, skip_space_stop in Hf by done.
    destruct (skip_space_spec f) as (w' & Hw' & Hf' & _). rewrite Hf in Hf'. by exists w', c, s.
  Qed.
  Lemma scan_entry_stuck t v : stuck t -> exists f', stuck f' /\ scan_entry scan_g t v = Ok (0%Z, v, f').
  Proof.
    intros (w & c & s & -> & Hw & Hc & Hd & H1 & H2). exists (c :: s). split; [by exists [], c, s; repeat split; [constructor|..]|].
    unfold scan_entry. destruct v as [[r0 c0] x0]. unfold scan_lu. rewrite skip_spaces_app, skip_space_stop by done. rewrite scan_digits_stuck; [done|].
    unfold no_number. tauto.
  Qed.
  Lemma data_stuck sym bound e k : forall D f fuel, stuck f -> length (D ++ flat_map (stored sym) (replicate k e)) = bound -> k < fuel ->
    exists v' f', while_ fuel (data_cond bound) (data_step scan_g sym) (None, length D, parts D bound, vars_of e, f) =
      Ok (None, bound, parts (D ++ flat_map (stored sym) (replicate k e)) bound, v', f').
  Proof.
    induction k as [|k IH]; intros D f fuel Hf Hl Hfuel; (destruct fuel as [|fuel]; [lia|]); cbn [replicate flat_map] in *.
    - rewrite app_nil_r in *. cbn [while_ mbind outcome_bind]. rewrite (proj2 (Nat.ltb_ge _ _)) by lia. rewrite Hl. by do 2 eexists.
    - rewrite app_assoc in *. pose proof (stored_length sym e) as Hse. cbn [while_ mbind outcome_bind].
      assert (Hl2 : length (D ++ stored sym e) <= bound) by (rewrite <- Hl; rewrite (app_length (D ++ _)); lia).
      rewrite (proj2 (Nat.ltb_lt (length D) bound)) by (rewrite app_length in Hl2; lia).
      destruct (scan_entry_stuck f (vars_of e) Hf) as (f' & Hf' & Hs). rewrite (data_step_to sym D bound e 0 f f') by done. cbn [mbind outcome_bind].
      apply (IH (D ++ stored sym e) f' fuel); [done|done|lia].
  Qed.
  Lemma count_stuck n e j : forall i k f fuel, stuck f -> i + j = n -> j < fuel ->
    exists v' f', while_ fuel (count_cond n) (count_step scan_g) (false, i, k, vars_of e, f) = Ok (false, n, (k + sum_count (replicate j e))%N, v', f').
  Proof.
    induction j as [|j IH]; intros i k f fuel Hf Hl Hfuel; (destruct fuel as [|fuel]; [lia|]); cbn [replicate sum_count while_ mbind outcome_bind negb andb] in *.
    - rewrite (proj2 (Nat.ltb_ge _ _)) by lia. rewrite N.add_0_r. replace i with n by lia. by do 2 eexists.
    - rewrite (proj2 (Nat.ltb_lt i n)) by lia. destruct (scan_entry_stuck f (vars_of e) Hf) as (f' & Hf' & Hs).
      rewrite (count_step_to _ _ e 0 f f') by done. cbn [mbind outcome_bind]. rewrite N.add_assoc. apply (IH (i + 1)); [done|lia|lia].
  Qed.
  Lemma data_pass_stuck sym bound l p k f t v : entries_text scan_g l f t -> Forall readable l -> last l = Some p -> stuck t ->
    length (flat_map (stored sym) (l ++ replicate k p)) = bound ->
    data_pass scan_g sym bound f v = Ok (bound, parts (flat_map (stored sym) (l ++ replicate k p)) bound).
  Proof.
    intros He Hr Hp Ht Hle. rewrite flat_map_app in *. unfold data_pass.
    destruct (data_run sym bound l [] f f t v (S (S bound)) He Hr eq_refl) as (fuel & f' & G1 & G2 & G3); [cbn [app]; rewrite <- Hle, app_length; lia|cbn [length]; lia|].
    unfold parts at 1 in G3. cbn [fmap list_fmap] in G3. rewrite !part_nil in G3. cbn [length app] in G1, G3. rewrite Hp in G3. rewrite G3.
    assert (Hk : k <= length (flat_map (stored sym) (replicate k p))).
    { clear. induction k as [|k IH]; [done|]. cbn [replicate flat_map]. rewrite app_length. pose proof (stored_length sym p). cbn [replicate] in *. lia. }
    rewrite app_length in Hle.
    destruct (data_stuck sym bound p k (flat_map (stored sym) l) f' fuel) as (v' & f'' & G4); [by eapply stuck_skip|by rewrite app_length|lia|].
    rewrite G4. done.
  Qed.
  Lemma count_pass_stuck nnz l p f t : entries_text scan_g l f t -> Forall readable l -> last l = Some p -> stuck t ->
    (2 * nnz <= int_max)%Z -> (0 <= nnz)%Z -> int_to_index (2 * nnz) = Z.to_nat (2 * nnz) -> length l <= Z.to_nat (2 * nnz) ->
    exists v, count_pass scan_g nnz f = Ok (sum_count (l ++ replicate (Z.to_nat (2 * nnz) - length l) p), v).
  Proof.
    intros He Hr Hp Ht Hn Hpos Hi Hle. unfold count_pass.
    rewrite (proj2 (Z.ltb_ge _ _) Hn), (proj2 (Z.ltb_ge _ _)) by (unfold int_max; lia). cbn [orb]. rewrite Hi. set (n := Z.to_nat (2 * nnz)) in *.
    destruct (count_run n l 0 0%N f f t (None, None, None) (S (S n)) He Hr eq_refl) as (fuel & f' & G1 & G2 & G3); [lia|lia|]. rewrite Hp in G3. cbn [Nat.add N.add] in G1, G3.
    destruct (count_stuck n p (n - length l) (length l) (sum_count l) f' fuel) as (v' & f'' & G4); [by eapply stuck_skip|lia|lia|].
    exists v'. rewrite sum_count_app. etransitivity; [apply (f_equal (fun o => o ≫= _)); etransitivity; [exact G3|exact G4]|]. done.
  Qed.
End tails.
