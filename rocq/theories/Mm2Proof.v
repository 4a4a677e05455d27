(** Mm2Proof.v: the entries of a Matrix Market file *)
From Verif Require Export MmProof.
From Coq Require Import ZifyNat ZifyBool ZifyN.

Section entries.
  Context {T : Type} `{Widths} (scan_g : bytes -> option T * bytes).
  (** t is a text of the value v for the conversion %lg *)
  Definition real_text (v : T) (t : bytes) : Prop :=
    match t with [] => False | c :: _ => is_space c = false end /\ forall s, ends s -> scan_g (t ++ s) = (Some v, s).
  (** t is a row number, a column number and a value, separated by white space *)
  Definition entry_text (e : N * N * T) (t : bytes) : Prop :=
    let '(r, c, v) := e in
    exists w0 tr w1 tc w2 tv, t = w0 ++ tr ++ w1 ++ tc ++ w2 ++ tv /\ spaces w0 /\ spaces w1 /\ w1 <> [] /\ spaces w2 /\ w2 <> [] /\
      num_text r tr /\ num_text c tc /\ real_text v tv.
  (** f is the entries l, each followed by white space or the end, and then rest *)
  Inductive entries_text : list (N * N * T) -> bytes -> bytes -> Prop :=
  | entries_nil rest : entries_text [] rest rest
  | entries_cons e l t f rest : entry_text e t -> ends f -> entries_text l f rest -> entries_text (e :: l) (t ++ f) rest.
  Definition readable (e : N * N * T) : Prop := (e.1.1 <= ulong_max /\ e.1.2 <= ulong_max)%N.

  Lemma spaces_ends w r : spaces w -> w <> [] -> ends (w ++ r).
  Proof. intros Hw Hn. destruct w as [|z w]; [done|]. by apply Forall_cons in Hw as [? _]. Qed.
  Lemma scan_entry_ok e t s v0 : entry_text e t -> readable e -> ends s ->
    scan_entry scan_g (t ++ s) v0 = Ok (3%Z, (Some e.1.1, Some e.1.2, Some e.2), skip_space s).
  Proof.
    destruct e as [[r c] v]. intros (w0 & tr & w1 & tc & w2 & tv & -> & W0 & W1 & N1 & W2 & N2 & Tr & Tc & [Tn Tv]) [R1 R2] Hs. cbn [fst snd] in *.
    unfold scan_entry. destruct v0 as [[r0 c0] x0]. rewrite <- !app_assoc.
    rewrite (scan_lu_num r) by (try done; by apply spaces_ends). cbn [mbind outcome_bind].
    rewrite (scan_lu_num c) by (try done; by apply spaces_ends). cbn [mbind outcome_bind].
    rewrite skip_spaces_app by done. destruct tv as [|z tv]; [done|]. cbn [app]. rewrite skip_space_stop by done.
    rewrite (app_comm_cons tv s z), Tv by done. done.
  Qed.
  Lemma scan_lu_skip f : scan_lu (skip_space f) = scan_lu f.
  Proof. unfold scan_lu. by rewrite skip_space_idem. Qed.
  Lemma scan_entry_skip f v : scan_entry scan_g (skip_space f) v = scan_entry scan_g f v.
  Proof. unfold scan_entry. by rewrite scan_lu_skip. Qed.
  Lemma scan_entry_end f v : spaces f -> scan_entry scan_g f v = Ok ((-1)%Z, v, []).
  Proof. intros Hf. unfold scan_entry. destruct v as [[r c] x]. rewrite (scan_lu_end f) by done. done. Qed.

  (** what one entry is stored as *)
  Definition stored (sym : bool) (e : N * N * T) : list (elem T) :=
    Elem (index_of e.1.1) (index_of e.1.2) e.2 0 :: if sym && negb (e.1.1 =? e.1.2)%N then [Elem (index_of e.1.2) (index_of e.1.1) e.2 0] else [].
  Definition parts (D : list (elem T)) (n : nat) : arr nat * arr nat * arr T := (part (row <$> D) n, part (col <$> D) n, part (val <$> D) n).
  Lemma set_point_parts D n e : length D < n ->
    set_point (part (row <$> D) n) (part (col <$> D) n) (part (val <$> D) n) (length D) (row e) (col e) (val e) = Ok (parts (D ++ [e]) n).
  Proof.
    intros Hl. unfold set_point, parts. rewrite !fmap_app. cbn [fmap list_fmap].
    pose proof (part_set (row <$> D) n (row e)) as H1. rewrite fmap_length in H1. rewrite H1 by done. cbn [mbind outcome_bind].
    pose proof (part_set (col <$> D) n (col e)) as H2. rewrite fmap_length in H2. rewrite H2 by done. cbn [mbind outcome_bind].
    pose proof (part_set (val <$> D) n (val e)) as H3. rewrite fmap_length in H3. rewrite H3 by done. done.
  Qed.
  Lemma data_step_end sym i A v f : spaces f -> data_step scan_g sym (None, i, A, v, f) = Ok (Some i, i, A, v, []).
  Proof. intros Hf. unfold data_step. by rewrite scan_entry_end. Qed.
  Lemma data_step_ok sym D n e t s f v : entry_text e t -> readable e -> ends s -> skip_space f = skip_space (t ++ s) -> length (D ++ stored sym e) <= n ->
    data_step scan_g sym (None, length D, parts D n, v, f) =
      Ok (None, length (D ++ stored sym e), parts (D ++ stored sym e) n, (Some e.1.1, Some e.1.2, Some e.2), skip_space s).
  Proof.
    intros Ht Hr Hs Hf Hn. unfold data_step. rewrite <- (scan_entry_skip f), Hf, scan_entry_skip, (scan_entry_ok e) by done.
    cbn [mbind outcome_bind Z.eqb use]. unfold stored in *. destruct e as [[r c] x]. cbn [fst snd] in *. unfold parts at 1. cbn [mbind outcome_bind use].
    rewrite app_length in Hn. cbn [length] in Hn.
    pose proof (set_point_parts D n (Elem (index_of r) (index_of c) x 0)) as Hp. cbn [row col val] in Hp. rewrite Hp by lia. clear Hp. cbn [mbind outcome_bind].
    destruct (sym && negb (r =? c)%N); cbn [length] in Hn.
    - unfold parts at 1. assert (Hl : length D + 1 = length (D ++ [Elem (index_of r) (index_of c) x 0])) by (by rewrite app_length).
      rewrite Hl. pose proof (set_point_parts (D ++ [Elem (index_of r) (index_of c) x 0]) n (Elem (index_of c) (index_of r) x 0)) as Hp.
      cbn [row col val] in Hp. rewrite Hp by (rewrite app_length; cbn [length]; lia). cbn [mbind outcome_bind].
      rewrite <- !app_assoc. cbn [app]. rewrite !app_length. cbn [length]. do 5 f_equal. lia.
    - rewrite !app_length. cbn [length]. done.
  Qed.
  Notation data_cond bound := (fun '(stop, i, _, _, _) => Ok (match stop with None => i <? bound | Some _ => false end)).
  Lemma data_loop sym bound l : forall D f f0 rest v fuel, entries_text l f0 rest -> Forall readable l -> skip_space f = skip_space f0 ->
    length (D ++ flat_map (stored sym) l) <= bound -> (length (D ++ flat_map (stored sym) l) < bound -> spaces rest) ->
    S (bound - length D) < fuel ->
    exists stop i v' f', while_ fuel (data_cond bound) (data_step scan_g sym) (None, length D, parts D bound, v, f) =
      Ok (stop, i, parts (D ++ flat_map (stored sym) l) bound, v', f') /\
      match stop with Some n => n | None => bound end = length (D ++ flat_map (stored sym) l).
  Proof.
    induction l as [|e l IH]; intros D f f0 rest v fuel He Hr Hf Hle Hlt Hfuel; inversion He; subst.
    - cbn [flat_map] in *. rewrite app_nil_r in *. destruct fuel as [|fuel]; [lia|]. cbn [while_ mbind outcome_bind].
      destruct (Nat.ltb_spec (length D) bound) as [Hd|Hd].
      + specialize (Hlt Hd). assert (Hsp : spaces f).
        { rewrite (skip_space_nil rest Hlt) in Hf. destruct (skip_space_spec f) as (w & Hw & Hfw & _). rewrite Hf, app_nil_r in Hfw. by subst f. }
        rewrite data_step_end by done. cbn [mbind outcome_bind]. destruct fuel as [|fuel]; [lia|]. cbn [while_ mbind outcome_bind].
        do 4 eexists. split; [done|done].
      + do 4 eexists. split; [done|]. cbn. lia.
    - apply Forall_cons in Hr as [Hr1 Hr]. cbn [flat_map] in *. rewrite app_assoc in *.
      destruct fuel as [|fuel]; [lia|]. cbn [while_ mbind outcome_bind].
      assert (Hd : length (D ++ stored sym e) <= bound) by (rewrite app_length in Hle; lia).
      assert (Hd1 : length D < length (D ++ stored sym e)) by (rewrite app_length; unfold stored; cbn [length]; lia).
      rewrite (proj2 (Nat.ltb_lt (length D) bound)) by lia. rewrite (data_step_ok sym D bound e t f1) by done. cbn [mbind outcome_bind].
      apply (IH (D ++ stored sym e) (skip_space f1) f1 rest); [done|done|by rewrite skip_space_idem|done|done|lia].
  Qed.
  Lemma data_pass_spec sym bound l f rest v : entries_text l f rest -> Forall readable l ->
    length (flat_map (stored sym) l) <= bound -> (length (flat_map (stored sym) l) < bound -> spaces rest) ->
    data_pass scan_g sym bound f v = Ok (length (flat_map (stored sym) l), parts (flat_map (stored sym) l) bound).
  Proof.
    intros He Hr Hle Hlt. unfold data_pass.
    destruct (data_loop sym bound l [] f f rest v (S (S bound)) He Hr eq_refl) as (stop & i & v' & f' & Hw & Hs); [done|done|cbn [length]; lia|].
    unfold parts at 1 in Hw. cbn [fmap list_fmap] in Hw. rewrite !part_nil in Hw. cbn [length app] in Hw, Hs. rewrite Hw. cbn [mbind outcome_bind]. by rewrite Hs.
  Qed.

  (** ** the first pass *)
  Definition entry_count (e : N * N * T) : N := if (e.1.1 =? e.1.2)%N then 1%N else 2%N.
  Fixpoint sum_count (l : list (N * N * T)) : N := match l with [] => 0%N | e :: l => (entry_count e + sum_count l)%N end.
  Lemma sum_count_length l : sum_count l = N.of_nat (length (flat_map (stored true) l)).
  Proof.
    induction l as [|e l IH]; [done|]. cbn [sum_count flat_map]. rewrite app_length, Nat2N.inj_add, <- IH. f_equal.
    unfold entry_count, stored. by destruct (e.1.1 =? e.1.2)%N.
  Qed.
  Lemma count_step_end i k v f : spaces f -> count_step scan_g (false, i, k, v, f) = Ok (true, i, k, v, []).
  Proof. intros Hf. unfold count_step. by rewrite scan_entry_end. Qed.
  Lemma count_step_ok i k e t s f v : entry_text e t -> readable e -> ends s -> skip_space f = skip_space (t ++ s) ->
    count_step scan_g (false, i, k, v, f) = Ok (false, i + 1, (k + entry_count e)%N, (Some e.1.1, Some e.1.2, Some e.2), skip_space s).
  Proof.
    intros Ht Hr Hs Hf. unfold count_step. rewrite <- (scan_entry_skip f), Hf, scan_entry_skip, (scan_entry_ok e) by done.
    cbn [mbind outcome_bind Z.eqb use]. unfold entry_count. by destruct (e.1.1 =? e.1.2)%N.
  Qed.
  Notation count_cond n := (fun '(stop, i, _, _, _) => Ok (negb stop && (i <? n))).
  Lemma count_loop n l : forall i k f f0 rest v fuel, entries_text l f0 rest -> Forall readable l -> skip_space f = skip_space f0 ->
    i + length l <= n -> (i + length l < n -> spaces rest) -> S (n - i) < fuel ->
    exists stop i' v' f', while_ fuel (count_cond n) (count_step scan_g) (false, i, k, v, f) = Ok (stop, i', (k + sum_count l)%N, v', f').
  Proof.
    induction l as [|e l IH]; intros i k f f0 rest v fuel He Hr Hf Hle Hlt Hfuel; inversion He; subst; (destruct fuel as [|fuel]; [lia|]); cbn [while_ mbind outcome_bind sum_count length] in *.
    - rewrite N.add_0_r, Nat.add_0_r in *. destruct (Nat.ltb_spec i n) as [Hd|Hd]; cbn [negb andb]; [|by do 4 eexists].
      specialize (Hlt Hd). assert (Hsp : spaces f).
      { rewrite (skip_space_nil rest Hlt) in Hf. destruct (skip_space_spec f) as (w & Hw & Hfw & _). rewrite Hf, app_nil_r in Hfw. by subst f. }
      rewrite count_step_end by done. cbn [mbind outcome_bind]. destruct fuel as [|fuel]; [lia|]. cbn [while_ mbind outcome_bind negb andb].
      by do 4 eexists.
    - apply Forall_cons in Hr as [Hr1 Hr]. rewrite (proj2 (Nat.ltb_lt i n)) by lia. cbn [negb andb].
      rewrite (count_step_ok i k e t f1) by done. cbn [mbind outcome_bind]. rewrite N.add_assoc.
      apply (IH (i + 1) _ (skip_space f1) f1 rest); [done|done|by rewrite skip_space_idem|lia|intros; apply Hlt; lia|lia].
  Qed.
  Lemma count_pass_spec nnz l f rest : entries_text l f rest -> Forall readable l -> (2 * nnz <= int_max)%Z -> (0 <= nnz)%Z -> int_to_index (2 * nnz) = Z.to_nat (2 * nnz) ->
    length l <= Z.to_nat (2 * nnz) -> (length l < Z.to_nat (2 * nnz) -> spaces rest) ->
    exists v, count_pass scan_g nnz f = Ok (sum_count l, v).
  Proof.
    intros He Hr Hn Hp Hi Hle Hlt. unfold count_pass. rewrite (proj2 (Z.ltb_ge _ _) Hn), (proj2 (Z.ltb_ge _ _)) by (unfold int_max; lia). cbn [orb]. rewrite Hi.
    destruct (count_loop (Z.to_nat (2 * nnz)) l 0 0%N f f rest (None, None, None) (S (S (Z.to_nat (2 * nnz)))) He Hr eq_refl) as (stop & i & v & f' & Hw); [done|done|lia|].
    exists v. match goal with |- (?o ≫= _) = _ => assert (Ho : o = Ok (stop, i, (0 + sum_count l)%N, v, f')) by exact Hw; rewrite Ho end. done.
  Qed.

  (** ** the two passes read the same entries, whatever the file holds *)
  (** no out-of-bounds access, and Q of the result *)
  Definition safe {A} (o : outcome A) (Q : A -> Prop) : Prop := match o with Ok a => Q a | Undef OutOfBounds => False | _ => True end.
  Lemma safe_bind {A B} (o : outcome A) (k : A -> outcome B) Q : safe o (fun a => safe (k a) Q) -> safe (o ≫= k) Q.
  Proof. by destruct o. Qed.
  Lemma safe_mono {A} (o : outcome A) (P Q : A -> Prop) : safe o P -> (forall a, P a -> Q a) -> safe o Q.
  Proof. destruct o as [a| [] | |]; cbn; auto. Qed.
  Lemma safe_use {A} (v : option A) (Q : A -> Prop) : (forall a, v = Some a -> Q a) -> safe (use v) Q.
  Proof. destruct v as [a|]; cbn; auto. Qed.
  Lemma scan_lu_safe s : safe (scan_lu s) (fun _ => True).
  Proof.
    unfold scan_lu. destruct (skip_space s); [done|]. destruct (scan_digits _) as [[[neg n0]|] r]; [|done]. by destruct (ulong_max <? n0)%N.
  Qed.
  Lemma scan_entry_safe f v : safe (scan_entry scan_g f v) (fun _ => True).
  Proof.
    destruct v as [[r c] x]. unfold scan_entry. apply safe_bind. eapply safe_mono; [apply scan_lu_safe|]. intros [[| |r'] s1] _; [done..|].
    apply safe_bind. eapply safe_mono; [apply scan_lu_safe|]. intros [[| |c'] s2] _; [done..|].
    destruct (skip_space s2); [done|]. by destruct (scan_g _) as [[x'|] s3].
  Qed.
  (** the variables r and c after a read depend on the text and on their former values only *)
  Lemma scan_entry_sim f r c x x' : match scan_entry scan_g f (r, c, x) with
    | Ok (ret, (r1, c1, _), f1) => exists x1, scan_entry scan_g f (r, c, x') = Ok (ret, (r1, c1, x1), f1)
    | _ => True end.
  Proof.
    unfold scan_entry. destruct (scan_lu f) as [[[| |r'] s1]| | |]; cbn [mbind outcome_bind]; eauto.
    destruct (scan_lu s1) as [[[| |c'] s2]| | |]; cbn [mbind outcome_bind]; eauto.
    destruct (skip_space s2); [eauto|]. destruct (scan_g _) as [[x1|] s3]; eauto.
  Qed.
  Lemma scan_entry_fresh f x r' c' x' : match scan_entry scan_g f (None, None, x) with
    | Ok (ret, (Some r1, Some c1, _), f1) => exists x1, scan_entry scan_g f (r', c', x') = Ok (ret, (Some r1, Some c1, x1), f1)
    | Ok ((-1)%Z, _, f1) => scan_entry scan_g f (r', c', x') = Ok ((-1)%Z, (r', c', x'), f1)
    | _ => True end.
  Proof.
    unfold scan_entry. destruct (scan_lu f) as [[[| |r1] s1]| | |]; cbn [mbind outcome_bind]; eauto.
    destruct (scan_lu s1) as [[[| |c1] s2]| | |]; cbn [mbind outcome_bind]; eauto.
    destruct (skip_space s2); [eauto|]. destruct (scan_g _) as [[x1|] s3]; eauto.
  Qed.
  Lemma count_mono n fuel st stop i k v f : while_ fuel (count_cond n) (count_step scan_g) st = Ok (stop, i, k, v, f) -> (st.1.1.2 <= k)%N.
  Proof.
    revert st. induction fuel as [|fuel IH]; [done|]. intros [[[[stop0 i0] k0] v0] f0]. cbn [while_ mbind outcome_bind].
    destruct (negb stop0 && (i0 <? n)); [|intros [= _ _ <- _ _]; cbn; lia].
    destruct (count_step scan_g (stop0, i0, k0, v0, f0)) as [st1| | |] eqn:E; cbn [mbind outcome_bind]; try done.
    intros Hw. apply IH in Hw. cbn [fst snd]. unfold count_step in E.
    destruct (scan_entry scan_g f0 v0) as [[[ret [[r c] x]] f1]| | |]; try done. cbn [mbind outcome_bind] in E.
    destruct (ret =? -1)%Z; [injection E as <-; cbn in Hw; lia|].
    destruct r as [r|]; [|done]. destruct c as [c|]; [|done]. cbn [use mbind outcome_bind] in E. injection E as <-. cbn [fst snd] in Hw.
    destruct (r =? c)%N; lia.
  Qed.
  Lemma aset_safe {A} (a : arr A) i v : i < length a -> safe (aset a i v) (fun a' => length a' = length a).
  Proof. intros Hi. rewrite aset_ok by done. cbn. by rewrite insert_length. Qed.
  Definition sized (n : nat) (A : arr nat * arr nat * arr T) : Prop := length A.1.1 = n /\ length A.1.2 = n /\ length A.2 = n.
  Lemma set_point_safe n ri ci vs i r c x : sized n (ri, ci, vs) -> i < n -> safe (set_point ri ci vs i r c x) (sized n).
  Proof.
    intros (H1 & H2 & H3) Hi. cbn in *. unfold set_point. apply safe_bind. eapply safe_mono; [apply aset_safe; lia|]. intros ri' L1.
    apply safe_bind. eapply safe_mono; [apply aset_safe; lia|]. intros ci' L2. apply safe_bind. eapply safe_mono; [apply aset_safe; lia|]. intros vs' L3.
    cbn in L1, L2, L3 |- *. split; [cbn; lia|split; cbn; lia].
  Qed.
  Lemma data_step_safe n sym i A v f : sized n A -> i < n -> (sym = false \/ forall ret r c x f1, scan_entry scan_g f v = Ok (ret, (Some r, Some c, x), f1) -> r <> c -> i + 1 < n) ->
    safe (data_step scan_g sym (None, i, A, v, f)) (fun '(stop, i', A', v', f') => sized n A').
  Proof.
    intros HA Hi Hsym. unfold data_step. apply safe_bind. pose proof (scan_entry_safe f v) as Hsf.
    destruct (scan_entry scan_g f v) as [[[ret [[r c] x]] f1]| [] | |] eqn:E; cbn in Hsf |- *; try done.
    destruct (ret =? -1)%Z; [done|]. destruct A as [[ri ci] vs]. destruct r as [r|]; [|done]. destruct c as [c|]; [|done]. destruct x as [x|]; [|done]. cbn [use mbind outcome_bind].
    apply safe_bind. eapply safe_mono; [apply (set_point_safe n); [done|lia]|]. intros [[ri' ci'] vs'] HA'.
    destruct (sym && negb (r =? c)%N) eqn:Es; [|done].
    apply andb_true_iff in Es as [-> Hrc]. apply safe_bind. eapply safe_mono; [apply (set_point_safe n); [done|]|].
    - destruct Hsym as [Hsym|Hsym]; [done|]. apply (Hsym ret r c (Some x) f1); [done|]. by apply negb_true_iff, N.eqb_neq in Hrc.
    - by intros A'' HA''.
  Qed.
  Lemma data_pass_safe_general bound f v : safe (data_pass scan_g false bound f v) (fun _ => True).
  Proof.
    unfold data_pass. apply safe_bind.
    assert (Hgen : forall fuel st, match st with (stop, i, A, v, f) => sized bound A end ->
      safe (while_ fuel (data_cond bound) (data_step scan_g false) st) (fun _ => True)).
    { induction fuel as [|fuel IH]; [done|]. intros [[[[stop i] A] v0] f0] HA. cbn [while_ mbind outcome_bind].
      destruct stop as [m|]; [done|]. destruct (Nat.ltb_spec i bound); [|done]. apply safe_bind.
      eapply safe_mono; [apply (data_step_safe bound); [done|done|by left]|]. intros st Hst. apply IH. by destruct st as [[[[? ?] ?] ?] ?]. }
    eapply safe_mono; [apply Hgen|]; [|by intros [[[[? ?] ?] ?] ?] _].
    unfold sized, new_arr. cbn [fst snd]. by rewrite !replicate_length.
  Qed.
  Lemma sim_loop n bound : forall cfuel i k r c x f stop0 i0 v0 f0, while_ cfuel (count_cond n) (count_step scan_g) (false, i, k, (r, c, x), f) = Ok (stop0, i0, N.of_nat bound, v0, f0) ->
    forall fuel A r' c' x', sized bound A -> ((r, c) = (r', c') \/ (r, c) = (None, None)) ->
    safe (while_ fuel (data_cond bound) (data_step scan_g true) (None, N.to_nat k, A, (r', c', x'), f)) (fun _ => True).
  Proof.
    induction cfuel as [|cfuel IH]; [done|]. intros i k r c x f stop0 i0 v0 f0 Hw fuel A r' c' x' HA Hv. destruct fuel as [|fuel]; [done|].
    cbn [while_ mbind outcome_bind negb andb] in Hw |- *. destruct (Nat.ltb_spec i n) as [Hin|Hin].
    2: { injection Hw as _ _ -> _ _. rewrite Nat2N.id, (proj2 (Nat.ltb_ge bound bound)) by lia. done. }
    destruct (count_step scan_g (false, i, k, (r, c, x), f)) as [st1| | |] eqn:E; cbn [mbind outcome_bind] in Hw; try done.
    unfold count_step in E. pose proof (scan_entry_sim f r c x x') as Hsim. pose proof (scan_entry_fresh f x r' c' x') as Hfresh.
    assert (Hsame : match scan_entry scan_g f (r, c, x) with
      | Ok (ret, (r1, c1, _), f1) => (ret = (-1)%Z \/ (is_Some r1 /\ is_Some c1)) -> exists r2 c2 x2, scan_entry scan_g f (r', c', x') = Ok (ret, (r2, c2, x2), f1) /\ (ret = (-1)%Z \/ (r2 = r1 /\ c2 = c1))
      | _ => True end).
    { destruct Hv as [[= <- <-]|[= -> ->]].
      - destruct (scan_entry scan_g f (r, c, x)) as [[[ret [[r1 c1] x1]] f1]| | |]; [|done..]. intros _. destruct Hsim as (x2 & ->). eauto 10.
      - destruct (scan_entry scan_g f (None, None, x)) as [[[ret [[r1 c1] x1]] f1]| | |] eqn:E0; [|done..]. intros [->|[[r2 ->] [c2 ->]]].
        + assert (Hx : exists r2 c2 x2, scan_entry scan_g f (r', c', x') = Ok ((-1)%Z, (r2, c2, x2), f1)); [|destruct Hx as (r2 & c2 & x2 & ->); eauto 10].
          destruct r1 as [r1|]; [destruct c1 as [c1|]|]; [destruct Hfresh as (x2 & ->)|rewrite Hfresh..]; eauto.
        + assert (Hx : exists x2, scan_entry scan_g f (r', c', x') = Ok (ret, (Some r2, Some c2, x2), f1)).
          { destruct ret as [|p|p]; try exact Hfresh; destruct p; exact Hfresh. }
          destruct Hx as (x2 & ->). eauto 10. }
    destruct (scan_entry scan_g f (r, c, x)) as [[[ret [[r1 c1] x1]] f1]| | |] eqn:E0; try done. cbn [mbind outcome_bind] in E.
    destruct (Z.eqb_spec ret (-1)) as [->|Hret].
    - injection E as <-. destruct cfuel as [|cfuel]; [done|]. cbn [while_ mbind outcome_bind negb andb] in Hw. injection Hw as _ _ -> _ _.
      rewrite Nat2N.id, (proj2 (Nat.ltb_ge bound bound)) by lia. done.
    - destruct r1 as [r1|]; [|done]. destruct c1 as [c1|]; [|done]. cbn [use mbind outcome_bind] in E. injection E as <-.
      destruct Hsame as (r2 & c2 & x2 & E2 & [?|[-> ->]]); [right; split; eauto|done|].
      pose proof (count_mono _ _ _ _ _ _ _ _ Hw) as Hk. cbn [fst snd] in Hk.
      destruct (Nat.ltb_spec (N.to_nat k) bound) as [Hkb|Hkb]; [|done].
      unfold data_step at 2. rewrite E2. cbn [mbind outcome_bind]. rewrite (proj2 (Z.eqb_neq ret (-1)) Hret). destruct A as [[ri ci] vs]. cbn [use mbind outcome_bind].
      destruct x2 as [x2|]; [|done]. cbn [use mbind outcome_bind].
      assert (Hp : safe (set_point ri ci vs (N.to_nat k) (index_of r1) (index_of c1) x2) (sized bound)) by (apply set_point_safe; [done|lia]).
      destruct (set_point ri ci vs (N.to_nat k) (index_of r1) (index_of c1) x2) as [[[ri1 ci1] vs1]|[]| |]; cbn in Hp |- *; try done.
      destruct (N.eqb_spec r1 c1) as [Hrc|Hrc]; cbn [negb mbind outcome_bind].
      + replace (N.to_nat k + 1) with (N.to_nat (k + 1)%N) by lia. eapply IH; [exact Hw|done|by left].
      + assert (Hp2 : safe (set_point ri1 ci1 vs1 (N.to_nat k + 1) (index_of c1) (index_of r1) x2) (sized bound)) by (apply set_point_safe; [done|lia]).
        destruct (set_point ri1 ci1 vs1 (N.to_nat k + 1) (index_of c1) (index_of r1) x2) as [[[ri2 ci2] vs2]|[]| |]; cbn in Hp2 |- *; try done.
        replace (N.to_nat k + 1 + 1) with (N.to_nat (k + 2)%N) by lia. eapply IH; [exact Hw|done|by left].
  Qed.
  Lemma data_pass_safe_symmetric nnz f counter v : count_pass scan_g nnz f = Ok (counter, v) ->
    safe (data_pass scan_g true (N.to_nat counter) f v) (fun _ => True).
  Proof.
    unfold count_pass. destruct ((int_max <? 2 * nnz)%Z || (2 * nnz <? - int_max - 1)%Z); [done|]. intros Hc.
    match type of Hc with (?o ≫= _) = _ => destruct o as [[[[[stop0 i0] k0] v0] f0]| | |] eqn:E end; try done. cbn in Hc. injection Hc as -> ->.
    unfold data_pass. apply safe_bind. eapply safe_mono; [|by intros [[[[? ?] ?] ?] ?] _].
    destruct v as [[r' c'] x']. pose proof (sim_loop (int_to_index (2 * nnz)) (N.to_nat counter) (S (S (int_to_index (2 * nnz)))) 0 0%N None None None f stop0 i0 (r', c', x') f0) as Hsim.
    rewrite N2Nat.id in Hsim. apply Hsim; [exact E| |by right]. unfold sized, new_arr. cbn [fst snd]. by rewrite !replicate_length.
  Qed.
End entries.
