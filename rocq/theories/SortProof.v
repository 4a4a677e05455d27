(** SortProof.v: the parallel merge sort computes the stable sort. *)
From Verif Require Import Sort.
From Coq Require Import ZifyNat ZifyBool.
Ltac Zify.zify_post_hook ::= Z.div_mod_to_equations.

Section proofs.
  Context {V : Type} (c : V -> V -> bool).
  Context (MC SC : nat).
  Implicit Types h : heap V.
  Notation le := (cle c).

  (** ** binary search *)
  Lemma bound_loop_rets fuel right (b : buf) first len :
    rets (fun r => first <= r <= first + len) (bound_loop fuel right b first len : prog V nat).
  Proof.
    revert first len. induction fuel as [|f IH]; intros first len; cbn [bound_loop]; [done|].
    case_decide as Hl; [|simpl; lia].
    eapply (rets_bind _ _ (fun _ => True)); [by intros v|]. intros m _.
    destruct (right m); (eapply rets_mono; [apply IH|]); simpl; intros r Hr; lia.
  Qed.
  Lemma bound_loop_fp fuel right (b : buf) first len (R W : loc -> Prop) :
    (forall l, rng b first (first + len) l -> R l) ->
    fp R W (bound_loop fuel right b first len : prog V nat).
  Proof.
    revert first len. induction fuel as [|f IH]; intros first len HR; cbn [bound_loop]; [done|].
    case_decide as Hl; [|done].
    apply fp_bind.
    - apply fp_read, HR. split; simpl; [done|lia].
    - intros m. destruct (right m); apply IH; intros l [H1 H2]; apply HR; (split; [done|]); lia.
  Qed.
  Lemma bound_loop_noaf fuel right (b : buf) first len : noaf (bound_loop fuel right b first len : prog V nat).
  Proof.
    revert first len. induction fuel as [|f IH]; intros first len; cbn [bound_loop]; [done|].
    case_decide as Hl; [|done]. apply noaf_bind; [done|]. intros m. by destruct (right m).
  Qed.
  Lemma bound_loop_spec fuel right (b : buf) first len h s (l : list V) k :
    harr h b s l -> s <= first -> first + len <= s + length l -> len < fuel ->
    first <= s + k <= first + len ->
    (forall i v, l !! i = Some v -> right v = true <-> i < k) ->
    rwp (bound_loop fuel right b first len) h (fun r h' => h' = h /\ r = s + k).
  Proof.
    intros Harr. revert first len. induction fuel as [|f IH]; intros first len Hs He Hf Hk Hpart; [lia|].
    cbn [bound_loop]. case_decide as Hl.
    - apply rwp_bind. destruct (harr_lookup h b s l (first + len / 2 - s) Harr) as (v & Hv & Hh); [lia|].
      replace (s + (first + len / 2 - s)) with (first + len / 2) in Hh by lia.
      eapply rwp_read; [exact Hh|].
      destruct (right v) eqn:E.
      + apply (Hpart _ _ Hv) in E. apply IH; try done; lia.
      + assert (~ (first + len / 2 - s < k)) by (intros Hc; apply (Hpart _ _ Hv) in Hc; congruence).
        apply IH; try done; lia.
    - apply rwp_ret. split; [done|lia].
  Qed.

  (** a sorted list splits where a monotone test changes *)
  Lemma partition_point (right : V -> bool) (l : list V) :
    StronglySorted le l ->
    (forall x y, le x y -> right y = true -> right x = true) ->
    exists k, k <= length l /\ (forall i v, l !! i = Some v -> right v = true <-> i < k).
  Proof.
    intros Hs Hm. induction Hs as [|x l Hl IH Hx].
    - exists 0. split; [done|]. intros i v Hi. done.
    - destruct IH as (k & Hk & Hp). destruct (right x) eqn:E.
      + exists (S k). split; [simpl; lia|]. intros [|i] v Hi; simpl in Hi.
        * simplify_eq. split; [lia|done].
        * rewrite (Hp i v Hi). lia.
      + exists 0. split; [lia|]. intros i v Hi. split; [|lia]. intros Hr. exfalso.
        assert (right x = true); [|congruence].
        destruct i as [|i]; simpl in Hi; simplify_eq; [done|].
        eapply Hm; [|exact Hr]. rewrite Forall_forall in Hx. apply Hx.
        by eapply elem_of_list_lookup_2.
  Qed.

  (** ** copy *)
  Lemma copy_fp (b : buf) s e bz z (R W : loc -> Prop) :
    (forall l, rng b s e l -> R l) -> (forall l, rng bz z (z + (e - s)) l -> W l) ->
    fp R W (copy b s e bz z : prog V unit).
  Proof.
    intros HR HW. unfold copy. apply fp_pfor. intros i Hi. apply fp_bind.
    - apply fp_read, HR. split; simpl; [done|lia].
    - intros v. apply fp_write, HW. split; simpl; [done|lia].
  Qed.
  Lemma copy_noaf (b : buf) s e bz z : noaf (copy b s e bz z : prog V unit).
  Proof. unfold copy. apply noaf_pfor. intros i. by apply noaf_bind. Qed.
  Lemma copy_spec (b : buf) s e bz z h (l : list V) :
    harr h b s l -> e - s = length l -> live h (rng bz z (z + length l)) -> b <> bz ->
    rwp (copy b s e bz z) h (fun _ h' => harr h' bz z l).
  Proof.
    intros Harr Hlen Hlive Hne. unfold copy. rewrite Hlen.
    eapply rwp_mono; [apply (rwp_pfor (fun i h' => harr h' b s l /\ live h' (rng bz z (z + length l)) /\
      harr h' bz z (take i l)))|].
    - split; [done|]. split; [done|]. rewrite take_0. apply harr_nil.
    - intros i h' Hi (H1 & H2 & H3). apply rwp_bind.
      destruct (harr_lookup h' b s l i H1) as (v & Hv & Hh); [lia|].
      eapply rwp_read; [exact Hh|]. apply rwp_write.
      { apply H2. split; simpl; [done|lia]. }
      split; [|split].
      + eapply harr_agree; [exact H1|]. intros j Hj. rewrite upd_lookup, decide_False; [done|]. congruence.
      + intros x Hx. rewrite upd_lookup. case_decide; [eauto|]. by apply H2.
      + rewrite (take_S_r _ _ v Hv).
        apply harr_snoc.
        * eapply harr_agree; [exact H3|]. intros j Hj. rewrite upd_lookup, decide_False; [done|].
          rewrite take_length in Hj. intros [=]. lia.
        * rewrite upd_lookup, decide_True; [done|]. rewrite take_length. f_equal. lia.
    - intros [] h' (_ & _ & H3). simpl in H3. by rewrite take_ge in H3 by lia.
  Qed.

  (** ** serial merge *)
  Definition xyz (bx : buf) xs xe (by_ : buf) ys ye (bz : buf) zs (l : loc) : Prop :=
    rng bx xs xe l \/ rng by_ ys ye l \/ rng bz zs (zs + ((xe - xs) + (ye - ys))) l.
  Ltac range := unfold xyz, rng in *; simpl in *; intuition (subst; lia || congruence || eauto).

  Lemma smm_fp fuel : forall (bx : buf) xs xe by_ ys ye bz zs (R W : loc -> Prop),
    xs < xe -> ys < ye ->
    (forall l, xyz bx xs xe by_ ys ye bz zs l -> R l) ->
    (forall l, rng bz zs (zs + ((xe - xs) + (ye - ys))) l -> W l) ->
    fp R W (smm_loop c fuel bx xs xe by_ ys ye bz zs).
  Proof.
    induction fuel as [|f IH]; intros bx xs xe by_ ys ye bz zs R W Hx Hy HR HW; cbn [smm_loop]; [done|].
    apply fp_bind; [apply fp_read, HR; range|]. intros vy.
    apply fp_bind; [apply fp_read, HR; range|]. intros vx.
    destruct (c vy vx).
    - apply fp_bind; [apply fp_write, HW; range|]. intros _.
      destruct (Nat.eqb_spec (S ys) (ye)) as [E|E].
      + apply copy_fp; intros l Hl; [apply HR|apply HW]; range.
      + apply IH; try lia; intros l Hl; [apply HR|apply HW]; range.
    - apply fp_bind; [apply fp_write, HW; range|]. intros _.
      destruct (Nat.eqb_spec (S xs) (xe)) as [E|E].
      + apply copy_fp; intros l Hl; [apply HR|apply HW]; range.
      + apply IH; try lia; intros l Hl; [apply HR|apply HW]; range.
  Qed.
  Lemma smm_noaf fuel : forall (bx : buf) xs xe by_ ys ye bz zs,
    noaf (smm_loop c fuel bx xs xe by_ ys ye bz zs).
  Proof.
    induction fuel as [|f IH]; intros; cbn [smm_loop]; [done|].
    apply noaf_bind; [done|]. intros vy. apply noaf_bind; [done|]. intros vx.
    destruct (c vy vx); (apply noaf_bind; [done|]); intros _; case_match; auto using copy_noaf.
  Qed.
  Lemma smm_spec fuel : forall (bx : buf) xs xe by_ ys ye bz zs h (l1 l2 : list V),
    harr h bx xs l1 -> harr h by_ ys l2 ->
    xe = xs + length l1 -> ye = ys + length l2 -> l1 <> [] -> l2 <> [] ->
    length l1 + length l2 < fuel -> bx <> bz -> by_ <> bz ->
    live h (rng bz zs (zs + (length l1 + length l2))) ->
    rwp (smm_loop c fuel bx xs xe by_ ys ye bz zs) h (fun _ h' => harr h' bz zs (merge c l1 l2)).
  Proof.
    induction fuel as [|f IH];
      intros bx xs xe by_ ys ye bz zs h l1 l2 H1 H2 Hxe Hye Hn1 Hn2 Hf Hbx Hby Hlive; [lia|].
    destruct l1 as [|x l1]; [done|]. destruct l2 as [|y l2]; [done|]. cbn [smm_loop].
    pose proof H1 as H1'. pose proof H2 as H2'.
    apply harr_cons in H1' as [Hx Hl1]. apply harr_cons in H2' as [Hy Hl2].
    apply rwp_bind. eapply rwp_read; [exact Hy|].
    apply rwp_bind. eapply rwp_read; [exact Hx|].
    simpl length in *.
    assert (Hpres : forall v (b : buf) o (l : list V), b <> bz -> harr h b o l ->
              harr (upd (Some (Some v)) (bz, zs) h) b o l).
    { intros v b o l Hb Hl. eapply harr_agree; [exact Hl|]. intros j Hj.
      rewrite upd_lookup, decide_False; [done|congruence]. }
    assert (Hlive' : forall v, live (upd (Some (Some v)) (bz, zs) h) (rng bz (S zs) (S zs + (length l1 + S (length l2))))).
    { intros v l Hl. rewrite upd_lookup. case_decide; [eauto|]. apply Hlive. range. }
    rewrite merge_cons. destruct (c y x) eqn:E.
    - apply rwp_bind. apply rwp_write; [apply Hlive; range|].
      destruct (Nat.eqb_spec (S ys) (ye)) as [Ey|Ey].
      + assert (l2 = []) as -> by (destruct l2; [done|simpl in *; lia]).
        rewrite merge_nil_r.
        eapply rwp_mono; [apply (rwp_frame _ (xyz bx xs xe by_ 0 0 bz (S zs)) (rng bz (S zs) (S zs + (xe - xs))))|].
        * apply copy_fp; intros l Hl; range.
        * apply (copy_spec bx xs xe bz (S zs) _ (x :: l1)); [by apply Hpres|simpl; lia| |done].
          intros l Hl. apply Hlive'. simpl in *. range.
        * intros [] h' [Ha Hfr]. apply harr_cons. split; [|done].
          rewrite Hfr by range. by rewrite upd_lookup, decide_True.
      + eapply rwp_mono; [apply (rwp_frame _ (xyz bx xs xe by_ (S ys) ye bz (S zs)) (rng bz (S zs) (S zs + ((xe - xs) + (ye - S ys)))))|].
        * apply smm_fp; try lia; intros l Hl; range.
        * apply (IH bx xs xe by_ (S ys) ye bz (S zs) _ (x :: l1) l2); auto; simpl in *; try lia.
          -- intros ->. simpl in *. lia.
          -- intros l Hl. apply Hlive'. range.
        * intros [] h' [Ha Hfr]. apply harr_cons. split; [|done].
          rewrite Hfr by range. by rewrite upd_lookup, decide_True.
    - apply rwp_bind. apply rwp_write; [apply Hlive; range|].
      destruct (Nat.eqb_spec (S xs) (xe)) as [Ex|Ex].
      + assert (l1 = []) as -> by (destruct l1; [done|simpl in *; lia]).
        eapply rwp_mono; [apply (rwp_frame _ (xyz bx 0 0 by_ ys ye bz (S zs)) (rng bz (S zs) (S zs + (ye - ys))))|].
        * apply copy_fp; intros l Hl; range.
        * apply (copy_spec by_ ys ye bz (S zs) _ (y :: l2)); [by apply Hpres|simpl; lia| |done].
          intros l Hl. apply Hlive'. simpl in *. range.
        * intros [] h' [Ha Hfr]. apply harr_cons. split; [|done].
          rewrite Hfr by range. by rewrite upd_lookup, decide_True.
      + eapply rwp_mono; [apply (rwp_frame _ (xyz bx (S xs) xe by_ ys ye bz (S zs)) (rng bz (S zs) (S zs + ((xe - S xs) + (ye - ys)))))|].
        * apply smm_fp; try lia; intros l Hl; range.
        * apply (IH bx (S xs) xe by_ ys ye bz (S zs) _ l1 (y :: l2)); auto; simpl in *; try lia.
          -- intros ->. simpl in *. lia.
        * intros [] h' [Ha Hfr]. apply harr_cons. split; [|done].
          rewrite Hfr by range. by rewrite upd_lookup, decide_True.
  Qed.

  Lemma serial_fp (bx : buf) xs xe by_ ys ye bz zs (R W : loc -> Prop) :
    xs <= xe -> ys <= ye ->
    (forall l, xyz bx xs xe by_ ys ye bz zs l -> R l) ->
    (forall l, rng bz zs (zs + ((xe - xs) + (ye - ys))) l -> W l) ->
    fp R W (serial_move_merge c bx xs xe by_ ys ye bz zs).
  Proof.
    intros Hx Hy HR HW. unfold serial_move_merge.
    destruct (Nat.eqb_spec (xs) (xe)) as [Ex|Ex]; [apply copy_fp; intros l Hl; [apply HR|apply HW]; range|].
    destruct (Nat.eqb_spec (ys) (ye)) as [Ey|Ey]; [apply copy_fp; intros l Hl; [apply HR|apply HW]; range|].
    apply smm_fp; try lia; done.
  Qed.
  Lemma serial_noaf (bx : buf) xs xe by_ ys ye bz zs : noaf (serial_move_merge c bx xs xe by_ ys ye bz zs).
  Proof. unfold serial_move_merge. repeat case_match; auto using copy_noaf, smm_noaf. Qed.
  Lemma serial_spec (bx : buf) xs xe by_ ys ye bz zs h (l1 l2 : list V) :
    harr h bx xs l1 -> harr h by_ ys l2 ->
    xe = xs + length l1 -> ye = ys + length l2 -> bx <> bz -> by_ <> bz ->
    live h (rng bz zs (zs + (length l1 + length l2))) ->
    rwp (serial_move_merge c bx xs xe by_ ys ye bz zs) h (fun _ h' => harr h' bz zs (merge c l1 l2)).
  Proof.
    intros H1 H2 Hxe Hye Hbx Hby Hlive. unfold serial_move_merge.
    destruct (Nat.eqb_spec (xs) (xe)) as [Ex|Ex].
    - assert (l1 = []) as -> by (destruct l1; [done|simpl in *; lia]). simpl.
      apply copy_spec; [done|lia|done|done].
    - destruct (Nat.eqb_spec (ys) (ye)) as [Ey|Ey].
      + assert (l2 = []) as -> by (destruct l2; [done|simpl in *; lia]). rewrite merge_nil_r.
        apply copy_spec; [done|lia| |done]. simpl in Hlive. by rewrite Nat.add_0_r in Hlive.
      + apply smm_spec; try done; try lia; intros ->; simpl in *; lia.
  Qed.

  (** ** parallel merge *)
  Definition split_point (bx : buf) xs xe (by_ : buf) ys ye : prog V (nat * nat) :=
    if (xe - xs) <? (ye - ys) then
      let ym := ys + (ye - ys) / 2 in
      v ← read (by_, ym); xm ← upper_bound c bx xs xe v; Ret (xm, ym)
    else
      let xm := xs + (xe - xs) / 2 in
      v ← read (bx, xm); ym ← lower_bound c by_ ys ye v; Ret (xm, ym).
  Lemma split_rets (bx : buf) xs xe by_ ys ye :
    xs <= xe -> ys <= ye ->
    rets (fun '(xm, ym) => xs <= xm <= xe /\ ys <= ym <= ye) (split_point bx xs xe by_ ys ye).
  Proof.
    intros Hx Hy. unfold split_point, upper_bound, lower_bound.
    destruct (_ <? _).
    - eapply (rets_bind _ _ (fun _ => True)); [by intros v|]. intros v _.
      eapply rets_bind; [apply bound_loop_rets|]. simpl. lia.
    - eapply (rets_bind _ _ (fun _ => True)); [by intros w|]. intros v _.
      eapply rets_bind; [apply bound_loop_rets|]. simpl. lia.
  Qed.
  Lemma split_fp (bx : buf) xs xe by_ ys ye (R W : loc -> Prop) :
    xs <= xe -> ys <= ye -> 0 < (xe - xs) + (ye - ys) ->
    (forall l, rng bx xs xe l -> R l) -> (forall l, rng by_ ys ye l -> R l) ->
    fp R W (split_point bx xs xe by_ ys ye).
  Proof.
    intros Hx Hy Hpos HRx HRy. unfold split_point, upper_bound, lower_bound.
    destruct (Nat.ltb_spec (xe - xs) (ye - ys)).
    - apply fp_bind; [apply fp_read, HRy; range|]. intros v.
      apply fp_bind; [|done]. apply bound_loop_fp. intros l Hl. apply HRx. range.
    - apply fp_bind; [apply fp_read, HRx; range|]. intros v.
      apply fp_bind; [|done]. apply bound_loop_fp. intros l Hl. apply HRy. range.
  Qed.
  Lemma pmm_unfold f (bx : buf) xs xe by_ ys ye bz zs :
    parallel_move_merge c MC (S f) bx xs xe by_ ys ye bz zs =
    if decide (MC < (xe - xs) + (ye - ys)) then
      split_point bx xs xe by_ ys ye ≫= fun '(xm, ym) =>
      Fork (parallel_move_merge c MC f bx xs xm by_ ys ym bz zs)
           (parallel_move_merge c MC f bx xm xe by_ ym ye bz (zs + ((xm - xs) + (ym - ys))))
           (Ret tt)
    else serial_move_merge c bx xs xe by_ ys ye bz zs.
  Proof. done. Qed.

  Lemma pmm_fp fuel : forall (bx : buf) xs xe by_ ys ye bz zs (R W : loc -> Prop),
    bx <> bz -> by_ <> bz -> xs <= xe -> ys <= ye ->
    (forall l, xyz bx xs xe by_ ys ye bz zs l -> R l) ->
    (forall l, rng bz zs (zs + ((xe - xs) + (ye - ys))) l -> W l) ->
    fp R W (parallel_move_merge c MC fuel bx xs xe by_ ys ye bz zs).
  Proof.
    induction fuel as [|f IH]; intros bx xs xe by_ ys ye bz zs R W Hbx Hby Hx Hy HR HW; [done|].
    rewrite pmm_unfold. case_decide as Hcut; [|by apply serial_fp].
    eapply fp_bind_rets; [apply split_fp; try done; try lia; intros l Hl; apply HR; range|by apply split_rets|].
    intros [xm ym] [Hxm Hym].
    apply (fp_Fork _ _ (xyz bx xs xm by_ ys ym bz zs) (rng bz zs (zs + ((xm - xs) + (ym - ys))))
      (xyz bx xm xe by_ ym ye bz (zs + ((xm - xs) + (ym - ys))))
      (rng bz (zs + ((xm - xs) + (ym - ys))) (zs + ((xe - xs) + (ye - ys)))));
      try (intros l Hl; (apply HR || apply HW || idtac); range); try done.
    - apply IH; try done; lia.
    - apply IH; try done; try lia. intros l Hl. range.
  Qed.
  Lemma bound_noaf : (forall (b : buf) s e v, noaf (upper_bound c b s e v)) /\
    (forall (b : buf) s e v, noaf (lower_bound c b s e v)).
  Proof. split; intros; apply bound_loop_noaf. Qed.
  Lemma pmm_noaf fuel : forall (bx : buf) xs xe by_ ys ye bz zs,
    noaf (parallel_move_merge c MC fuel bx xs xe by_ ys ye bz zs).
  Proof.
    induction fuel as [|f IH]; intros; [done|]. rewrite pmm_unfold.
    case_decide; [|apply serial_noaf]. apply noaf_bind.
    - unfold split_point. case_match; apply noaf_bind; try done; intros v; apply noaf_bind; try done;
        apply bound_noaf.
    - intros [xm ym]. simpl. auto.
  Qed.

  Context (Hc : swo c).

  Lemma sorted_app_inv (l1 l2 : list V) : StronglySorted le (l1 ++ l2) ->
    StronglySorted le l1 /\ StronglySorted le l2 /\ forall x y, In x l1 -> In y l2 -> le x y.
  Proof.
    induction l1 as [|z l1 IH]; intros H; simpl in *.
    - split; [constructor|]. split; [done|]. intros ? ? [].
    - inversion H as [|? ? Hs Hf]; subst. destruct (IH Hs) as (H1 & H2 & H3).
      apply Forall_app in Hf as [Hf1 Hf2]. split; [by constructor|]. split; [done|].
      intros x y [->|Hx] Hy; [|auto]. rewrite Forall_forall in Hf2. by apply Hf2, elem_of_list_In.
  Qed.

  Lemma split_spec (bx : buf) xs xe by_ ys ye h (l1 l2 : list V) :
    harr h bx xs l1 -> harr h by_ ys l2 -> xe = xs + length l1 -> ye = ys + length l2 ->
    2 < length l1 + length l2 ->
    StronglySorted le l1 -> StronglySorted le l2 ->
    rwp (split_point bx xs xe by_ ys ye) h (fun '(xm, ym) h' => h' = h /\
      exists a1 a2 b1 b2, l1 = a1 ++ a2 /\ l2 = b1 ++ b2 /\ xm = xs + length a1 /\ ym = ys + length b1 /\
        merge c l1 l2 = merge c a1 b1 ++ merge c a2 b2 /\
        length a1 + length b1 < length l1 + length l2 /\ 0 < length a1 + length b1).
  Proof.
    intros H1 H2 -> -> Hlen Hs1 Hs2. unfold split_point, upper_bound, lower_bound.
    replace (xs + length l1 - xs) with (length l1) by lia.
    replace (ys + length l2 - ys) with (length l2) by lia.
    destruct (Nat.ltb_spec (length l1) (length l2)) as [Hlt|Hge].
    - destruct (harr_lookup h by_ ys l2 (length l2 / 2) H2) as (v & Hv & Hh); [lia|].
      apply rwp_bind. eapply rwp_read; [exact Hh|].
      destruct (partition_point (fun m => negb (c v m)) l1 Hs1) as (k & Hk & Hpart).
      { intros x y Hxy. rewrite !negb_true_iff. intros Hvy.
        exact (cle_trans c Hc x y v Hxy Hvy). }
      apply rwp_bind. eapply rwp_mono; [eapply (bound_loop_spec _ _ _ _ _ _ xs l1 k); try done; lia|].
      intros xm h' [-> ->]. apply rwp_ret. split; [done|].
      exists (take k l1), (drop k l1), (take (length l2 / 2) l2), (drop (length l2 / 2) l2).
      rewrite !take_drop. repeat split; rewrite ?take_length; try lia.
      rewrite <- (take_drop k l1) at 1. rewrite <- (take_drop (length l2 / 2) l2) at 1.
      pose proof (drop_S _ _ _ Hv) as Hdrop.
      pose proof Hs2 as Hs2'. rewrite <- (take_drop (length l2 / 2) l2) in Hs2'.
      apply sorted_app_inv in Hs2' as (Hb1 & Hb2 & Hb12).
      assert (Hvle : forall y, In y (drop (length l2 / 2) l2) -> le v y).
      { rewrite Hdrop in *. inversion Hb2 as [|? ? ? Hall]; subst. intros y [->|Hy]; [by apply cle_refl|].
        rewrite Forall_forall in Hall. by apply Hall, elem_of_list_In. }
      apply merge_split; rewrite ?take_drop; try done.
      + intros x y Hx Hy. apply elem_of_list_In, elem_of_take in Hx as (i & Hi & Hik).
        apply (Hpart i x Hi) in Hik. apply negb_true_iff in Hik.
        eapply (cle_trans c Hc); [exact Hik|]. by apply Hvle.
      + intros y x Hy Hx. eapply (cle_clt_trans c Hc y v x).
        * apply Hb12; [done|]. rewrite Hdrop. by left.
        * apply elem_of_list_In, elem_of_list_lookup in Hx as (i & Hi).
          rewrite lookup_drop in Hi. destruct (c v x) eqn:E; [done|]. exfalso.
          assert (k + i < k); [|lia]. apply (Hpart _ _ Hi). by rewrite E.
    - destruct (harr_lookup h bx xs l1 (length l1 / 2) H1) as (v & Hv & Hh); [lia|].
      apply rwp_bind. eapply rwp_read; [exact Hh|].
      destruct (partition_point (fun m => c m v) l2 Hs2) as (k & Hk & Hpart).
      { intros x y Hxy Hyv. exact (cle_clt_trans c Hc x y v Hxy Hyv). }
      apply rwp_bind. eapply rwp_mono; [eapply (bound_loop_spec _ _ _ _ _ _ ys l2 k); try done; lia|].
      intros ym h' [-> ->]. apply rwp_ret. split; [done|].
      exists (take (length l1 / 2) l1), (drop (length l1 / 2) l1), (take k l2), (drop k l2).
      rewrite !take_drop. repeat split; rewrite ?take_length; try lia.
      rewrite <- (take_drop k l2) at 1. rewrite <- (take_drop (length l1 / 2) l1) at 1.
      pose proof (drop_S _ _ _ Hv) as Hdrop.
      pose proof Hs1 as Hs1'. rewrite <- (take_drop (length l1 / 2) l1) in Hs1'.
      apply sorted_app_inv in Hs1' as (Hb1 & Hb2 & Hb12).
      assert (Hvle : forall y, In y (drop (length l1 / 2) l1) -> le v y).
      { rewrite Hdrop in *. inversion Hb2 as [|? ? ? Hall]; subst. intros y [->|Hy]; [by apply cle_refl|].
        rewrite Forall_forall in Hall. by apply Hall, elem_of_list_In. }
      apply merge_split; rewrite ?take_drop; try done.
      + intros x y Hx Hy. eapply (cle_trans c Hc x v y).
        * apply Hb12; [done|]. rewrite Hdrop. by left.
        * apply elem_of_list_In, elem_of_list_lookup in Hy as (i & Hi).
          rewrite lookup_drop in Hi. unfold cle. destruct (c y v) eqn:E; [|done]. exfalso.
          assert (k + i < k); [|lia]. by apply (Hpart _ _ Hi).
      + intros y x Hy Hx. apply elem_of_list_In, elem_of_take in Hy as (i & Hi & Hik).
        apply (Hpart i y Hi) in Hik.
        eapply (clt_cle_trans c Hc); [exact Hik|]. by apply Hvle.
  Qed.

  Lemma pmm_spec fuel : forall (bx : buf) xs xe by_ ys ye bz zs h (l1 l2 : list V),
    2 <= MC -> harr h bx xs l1 -> harr h by_ ys l2 ->
    xe = xs + length l1 -> ye = ys + length l2 -> bx <> bz -> by_ <> bz ->
    live h (rng bz zs (zs + (length l1 + length l2))) ->
    StronglySorted le l1 -> StronglySorted le l2 -> length l1 + length l2 < fuel ->
    rwp (parallel_move_merge c MC fuel bx xs xe by_ ys ye bz zs) h
        (fun _ h' => harr h' bz zs (merge c l1 l2)).
  Proof.
    induction fuel as [|f IH];
      intros bx xs xe by_ ys ye bz zs h l1 l2 HMC H1 H2 -> -> Hbx Hby Hlive Hs1 Hs2 Hf; [lia|].
    rewrite pmm_unfold. case_decide as Hcut; [|by apply serial_spec].
    apply rwp_bind. eapply rwp_mono; [eapply split_spec; try done; lia|].
    intros [xm ym] h' [-> (a1 & a2 & b1 & b2 & -> & -> & -> & -> & Hm & Hlt & Hgt)].
    rewrite !app_length in *. apply harr_app in H1 as [Ha1 Ha2]. apply harr_app in H2 as [Hb1 Hb2].
    apply sorted_app_inv in Hs1 as (Hsa1 & Hsa2 & _). apply sorted_app_inv in Hs2 as (Hsb1 & Hsb2 & _).
    apply rwp_Fork.
    eapply rwp_mono; [eapply (rwp_frame_live _ _ _ _ _ (pmm_fp f bx xs (xs + length a1) by_ ys (ys + length b1) bz zs
       (fun _ => True) (rng bz zs (zs + (length a1 + length b1))) Hbx Hby ltac:(lia) ltac:(lia) ltac:(done) _)
       (pmm_noaf f _ _ _ _ _ _ _ _))|].
    { apply (IH _ _ _ _ _ _ _ _ _ a1 b1); try done; try lia. intros l Hl. apply Hlive. range. }
    intros [] h1 (Hz1 & Hfr1 & Hlive1).
    eapply rwp_mono; [eapply (rwp_frame_live _ (fun _ => True)
       (rng bz (zs + (length a1 + length b1)) (zs + (length a1 + length a2 + (length b1 + length b2)))))|].
    - apply pmm_fp; try done; try lia. intros l Hl. range.
    - apply pmm_noaf.
    - apply (IH _ _ _ _ _ _ _ _ _ a2 b2); try done; try lia.
      + eapply harr_agree; [exact Ha2|]. intros i Hi. apply Hfr1. range.
      + eapply harr_agree; [exact Hb2|]. intros i Hi. apply Hfr1. range.
      + intros l Hl. apply Hlive1, Hlive. range.
    - intros [] h2 (Hz2 & Hfr2 & Hlive2). apply rwp_ret. rewrite Hm. apply harr_app. split.
      + eapply harr_agree; [exact Hz1|]. intros i Hi. apply Hfr2. rewrite merge_length in Hi. range.
      + rewrite merge_length. replace (zs + (length a1 + length b1)) with
          (zs + ((xs + length a1 - xs) + (ys + length b1 - ys))) by lia. done.
    Unshelve. intros l Hl. range.
  Qed.

  (** ** std::stable_sort by specification *)
  Lemma read_list_fp (b : buf) s n (R W : loc -> Prop) :
    (forall l, rng b s (s + n) l -> R l) -> fp R W (read_list b s n : prog V (list V)).
  Proof.
    revert s. induction n as [|n IH]; intros s HR; [done|]. cbn [read_list].
    apply fp_bind; [apply fp_read, HR; range|]. intros v. apply fp_bind; [|done].
    apply IH. intros l Hl. apply HR. range.
  Qed.
  Lemma read_list_rets (b : buf) s n : rets (fun l => length l = n) (read_list b s n : prog V (list V)).
  Proof.
    revert s. induction n as [|n IH]; intros s; [done|]. cbn [read_list].
    eapply (rets_bind _ _ (fun _ => True)); [by intros v|]. intros v _.
    eapply rets_bind; [apply IH|]. intros l Hl. simpl. by rewrite Hl.
  Qed.
  Lemma read_list_noaf (b : buf) s n : noaf (read_list b s n : prog V (list V)).
  Proof.
    revert s. induction n as [|n IH]; intros s; [done|]. cbn [read_list].
    apply noaf_bind; [done|]. intros v. by apply noaf_bind.
  Qed.
  Lemma read_list_spec (b : buf) s n h (l : list V) :
    harr h b s l -> length l = n -> rwp (read_list b s n) h (fun r h' => h' = h /\ r = l).
  Proof.
    revert s l. induction n as [|n IH]; intros s l Harr Hl; cbn [read_list].
    - destruct l; [|done]. by apply rwp_ret.
    - destruct l as [|x l]; [done|]. apply harr_cons in Harr as [Hx Hl'].
      apply rwp_bind. eapply rwp_read; [exact Hx|]. apply rwp_bind.
      eapply rwp_mono; [apply (IH (S s) l); [done|by injection Hl]|].
      intros r h' [-> ->]. by apply rwp_ret.
  Qed.
  Lemma write_list_fp (b : buf) s (vs : list V) (R W : loc -> Prop) :
    (forall l, rng b s (s + length vs) l -> W l) -> fp R W (write_list b s vs).
  Proof.
    revert s. induction vs as [|v vs IH]; intros s HW; [done|]. cbn [write_list].
    apply fp_bind; [apply fp_write, HW; range|]. intros _. apply IH. intros l Hl. apply HW. range.
  Qed.
  Lemma write_list_noaf (b : buf) s (vs : list V) : noaf (write_list b s vs).
  Proof.
    revert s. induction vs as [|v vs IH]; intros s; [done|]. cbn [write_list]. by apply noaf_bind.
  Qed.
  Lemma write_list_spec (b : buf) s (vs : list V) h :
    live h (rng b s (s + length vs)) -> rwp (write_list b s vs) h (fun _ h' => harr h' b s vs).
  Proof.
    revert s h. induction vs as [|v vs IH]; intros s h Hlive; cbn [write_list].
    - apply rwp_ret, harr_nil.
    - apply rwp_bind, rwp_write; [apply Hlive; range|].
      eapply rwp_mono; [apply (rwp_frame _ (fun _ => True) (rng b (S s) (S s + length vs)))|].
      + by apply write_list_fp.
      + apply IH. intros l Hl. rewrite upd_lookup. case_decide; [eauto|]. apply Hlive. range.
      + intros [] h' [Ha Hfr]. apply harr_cons. split; [|done].
        rewrite Hfr by range. by rewrite upd_lookup, decide_True.
  Qed.
  Lemma std_fp (b : buf) s e (R W : loc -> Prop) :
    (forall l, rng b s e l -> R l) -> (forall l, rng b s e l -> W l) -> fp R W (std_stable_sort c b s e).
  Proof.
    intros HR HW. unfold std_stable_sort.
    eapply fp_bind_rets; [apply read_list_fp; intros l Hl; apply HR; range|apply read_list_rets|].
    intros l Hl. apply write_list_fp. rewrite isort_length. intros x Hx. apply HW. range.
  Qed.
  Lemma std_noaf (b : buf) s e : noaf (std_stable_sort c b s e).
  Proof. apply noaf_bind; [apply read_list_noaf|]. intros. apply write_list_noaf. Qed.
  Lemma std_spec (b : buf) s e h (l : list V) :
    harr h b s l -> e = s + length l ->
    rwp (std_stable_sort c b s e) h (fun _ h' => harr h' b s (isort c l)).
  Proof.
    intros Harr ->. apply rwp_bind. eapply rwp_mono; [apply read_list_spec; [done|lia]|].
    intros r h' [-> ->]. apply write_list_spec. rewrite isort_length. by apply harr_live.
  Qed.

  (** ** the recursive sort *)
  Definition xz (bx : buf) xs xe (bz : buf) zs (l : loc) : Prop :=
    rng bx xs xe l \/ rng bz zs (zs + (xe - xs)) l.
  Ltac range2 := unfold xz in *; range.

  Lemma aux_fp fuel : forall (bx : buf) xs xe bz zs ip (R W : loc -> Prop),
    bx <> bz -> xs <= xe -> (forall l, xz bx xs xe bz zs l -> R l) ->
    (forall l, xz bx xs xe bz zs l -> W l) ->
    fp R W (parallel_stable_sort_aux c MC SC fuel bx xs xe bz zs ip).
  Proof.
    induction fuel as [|f IH]; intros bx xs xe bz zs ip R W Hne Hx HR HW; [done|].
    cbn [parallel_stable_sort_aux]. case_decide as Hcut.
    - unfold stable_sort_base_case. apply fp_bind.
      + apply std_fp; intros l Hl; [apply HR|apply HW]; range2.
      + intros _. destruct (ip =? 0); [|done].
        apply copy_fp; intros l Hl; [apply HR|apply HW]; range2.
    - set (xm := xs + (xe - xs) / 2).
      assert (Hxm : xs <= xm <= xe) by (unfold xm; lia). clearbody xm.
      apply (fp_Fork _ _ (xz bx xs xm bz zs) (xz bx xs xm bz zs)
        (xz bx xm xe bz (zs + (xm - xs))) (xz bx xm xe bz (zs + (xm - xs))));
        try (intros l Hl; (apply HR || apply HW || idtac); range2); try done.
      + apply IH; try done; lia.
      + apply IH; try done; lia.
      + unfold pmm. destruct (ip =? 0).
        * apply pmm_fp; try done; try lia; intros l Hl; [apply HR|apply HW]; range2.
        * apply pmm_fp; try done; try lia; intros l Hl; [apply HR|apply HW]; range2.
  Qed.
  Lemma aux_noaf fuel : forall (bx : buf) xs xe bz zs ip,
    noaf (parallel_stable_sort_aux c MC SC fuel bx xs xe bz zs ip).
  Proof.
    induction fuel as [|f IH]; intros; [done|]. cbn [parallel_stable_sort_aux].
    case_decide.
    - apply noaf_bind; [apply std_noaf|]. intros _. case_match; [apply copy_noaf|done].
    - simpl. split; [apply IH|]. split; [apply IH|]. case_match; apply pmm_noaf.
  Qed.
  Lemma aux_spec fuel : forall (bx : buf) xs xe bz zs ip h (l : list V),
    2 <= MC -> 1 <= SC -> harr h bx xs l -> xe = xs + length l -> bx <> bz ->
    live h (rng bz zs (zs + length l)) -> length l < fuel ->
    rwp (parallel_stable_sort_aux c MC SC fuel bx xs xe bz zs ip) h
        (fun _ h' => if ip =? 0 then harr h' bz zs (isort c l) else harr h' bx xs (isort c l)).
  Proof.
    induction fuel as [|f IH]; intros bx xs xe bz zs ip h l HMC HSC Harr -> Hne Hlive Hf; [lia|].
    cbn [parallel_stable_sort_aux]. replace (xs + length l - xs) with (length l) by lia.
    case_decide as Hcut.
    - unfold stable_sort_base_case. apply rwp_bind.
      eapply rwp_mono; [apply (rwp_frame_live _ (fun _ => True) (rng bx xs (xs + length l)))|].
      + by apply std_fp.
      + apply std_noaf.
      + by apply (std_spec bx xs (xs + length l) h l).
      + intros [] h1 (Ha & Hfr & Hl1). destruct (ip =? 0).
        * apply copy_spec; [done|rewrite isort_length; lia| |done].
          rewrite isort_length. intros x Hx. apply Hl1, Hlive. done.
        * by apply rwp_ret.
    - set (k := length l / 2). assert (Hk : k < length l /\ 0 < k) by (unfold k; lia).
      clearbody k. replace (xs + k - xs) with k by lia.
      rewrite <- (take_drop k l) in Harr.
      apply harr_app in Harr as [H1 H2]. rewrite take_length_le in H2 by lia.
      apply rwp_Fork.
      eapply rwp_mono; [apply (rwp_frame_live _ (fun _ => True) (xz bx xs (xs + k) bz zs))|].
      { apply aux_fp; try done; lia. }
      { apply aux_noaf. }
      { apply (IH _ _ _ _ _ _ _ (take k l)); try done; rewrite ?take_length_le by lia; try lia.
        intros x Hx. apply Hlive. range2. }
      intros [] h1 (Hr1 & Hfr1 & Hl1).
      eapply rwp_mono; [apply (rwp_frame_live _ (fun _ => True) (xz bx (xs + k) (xs + length l) bz (zs + k)))|].
      { apply aux_fp; try done; lia. }
      { apply aux_noaf. }
      { apply (IH _ _ _ _ _ _ _ (drop k l)); try done; rewrite ?drop_length; try lia.
        - eapply harr_agree; [exact H2|]. intros i Hi. rewrite drop_length in Hi. apply Hfr1. range2.
        - intros x Hx. apply Hl1, Hlive. range2. }
      intros [] h2 (Hr2 & Hfr2 & Hl2).
      assert (Happ : isort c l = merge c (isort c (take k l)) (isort c (drop k l))).
      { rewrite <- (isort_app c Hc). by rewrite take_drop. }
      rewrite Happ.
      unfold lnot in Hr1, Hr2. unfold pmm.
      pose proof (isort_sorted c Hc (take k l)) as Hs1. pose proof (isort_sorted c Hc (drop k l)) as Hs2.
      assert (Hlen1 : length (isort c (take k l)) = k) by (rewrite isort_length, take_length_le; lia).
      assert (Hlen2 : length (isort c (drop k l)) = length l - k) by (rewrite isort_length, drop_length; lia).
      destruct (ip =? 0) eqn:Eip; simpl in Hr1, Hr2.
      + apply pmm_spec; rewrite ?Hlen1, ?Hlen2; try done; try lia.
        * eapply harr_agree; [exact Hr1|]. rewrite Hlen1. intros i Hi. apply Hfr2. range2.
        * intros x Hx. apply Hl2, Hl1, Hlive. range2.
      + apply pmm_spec; rewrite ?Hlen1, ?Hlen2; try done; try lia.
        * eapply harr_agree; [exact Hr1|]. rewrite Hlen1. intros i Hi. apply Hfr2. range2.
        * intros x Hx. apply Hl2, Hl1.
          assert (Hh : live h (rng bx xs (xs + length l))).
          { rewrite <- (take_drop k l). apply harr_live. apply harr_app. rewrite take_length_le by lia. done. }
          apply Hh. range2.
  Qed.

  (** ** The whole sort *)
  Local Instance rng_dec0 b s e l : Decision (rng b s e l).
  Proof. unfold rng. apply _. Defined.
  Lemma sort_fp ok (b z : buf) n : b <> z ->
    fp (fun l => rng b 0 n l \/ rng z 0 n l) (fun l => rng b 0 n l \/ rng z 0 n l)
       (parallel_stable_sort c MC SC ok b z n).
  Proof.
    intros Hne. unfold parallel_stable_sort. destruct ok.
    - apply fp_bind; [simpl; split; [|done]; intros i Hi; range2|]. intros _.
      apply fp_bind; [|intros _; simpl; split; [|done]; intros i Hi; range2].
      apply aux_fp; try done; try lia; intros l Hl; range2.
    - apply std_fp; intros l Hl; range2.
  Qed.
  Lemma sort_run ok (b z : buf) h (l : list V) :
    2 <= MC -> 1 <= SC -> b <> z -> all_free z (length l) h -> harr h b 0 l ->
    run (parallel_stable_sort c MC SC ok b z (length l)) h = Ok (tt, hset b 0 (isort c l) h).
  Proof.
    intros HMC HSC Hne Hfree Harr.
    assert (Hres : rwp (parallel_stable_sort c MC SC ok b z (length l)) h
      (fun _ h' => harr h' b 0 (isort c l) /\ forall i, i < length l -> h' !! (z, i) = h !! (z, i))).
    { unfold parallel_stable_sort. destruct ok.
      - apply rwp_bind, rwp_alloc; [done|]. apply rwp_bind.
        eapply rwp_mono; [apply (rwp_frame_live _ (fun _ => True) (xz b 0 (length l) z 0))|].
        + apply aux_fp; try done; lia.
        + apply aux_noaf.
        + apply (aux_spec _ _ _ _ _ _ _ _ l); try done; try lia.
          * eapply harr_agree; [exact Harr|]. intros i Hi. rewrite set_cells_lookup, decide_False; [done|].
            simpl. tauto.
          * intros [b' i] Hx. rewrite set_cells_lookup. simpl. rewrite decide_True; [eauto|]. range.
        + intros [] h1 (Ha & Hfr & Hl). simpl in Ha. apply rwp_free.
          { intros i Hi. apply Hl. rewrite set_cells_lookup. simpl. rewrite decide_True by done. eauto. }
          split.
          * eapply harr_agree; [exact Ha|]. intros i Hi. rewrite set_cells_lookup, decide_False; [done|].
            simpl. tauto.
          * intros i Hi. rewrite set_cells_lookup. simpl. rewrite decide_True by done. symmetry. by apply Hfree.
      - eapply rwp_mono; [apply (rwp_frame _ (fun _ => True) (rng b 0 (length l)))|].
        + by apply std_fp.
        + by apply (std_spec b 0 (length l) h l).
        + intros [] h' [Ha Hfr]. split; [done|]. intros i Hi. apply Hfr. range. }
    apply (rwp_frame _ _ _ _ _ (sort_fp ok b z (length l) Hne)) in Hres.
    apply rwp_run in Hres as ([] & h' & Hrun & (Ha & Hz) & Hfr). rewrite Hrun. f_equal. f_equal.
    apply hset_eq; [done|]. rewrite isort_length. intros [b' i] Hx.
    destruct (decide (rng z 0 (length l) (b', i))) as [Hr|Hr].
    - destruct Hr as [Hb Hi]. simpl in *. subst b'. apply Hz. lia.
    - apply Hfr. intros [?|?]; done.
  Qed.
  Lemma sort_all_schedules ok (b z : buf) h (l : list V) :
    2 <= MC -> 1 <= SC -> b <> z -> all_free z (length l) h -> harr h b 0 l ->
    all_schedules (parallel_stable_sort c MC SC ok b z (length l)) h tt (hset b 0 (isort c l) h).
  Proof.
    intros. eapply fp_all_schedules; [|by apply sort_fp|by apply sort_run]. done.
  Qed.
End proofs.

Lemma read_back_harr {V} (h : heap V) (b : buf) (i : nat) (l : list V) :
  harr h b i l -> read_back h b i (length l) = Ok l.
Proof.
  revert i. induction l as [|x l IH]; intros i H; [done|]. apply harr_cons in H as [H1 H2].
  simpl. rewrite H1. rewrite (IH _ H2). done.
Qed.
(** The sort routine called by every conversion computes the stable sort. *)
Lemma psort_isort {V} ok (c : V -> V -> bool) (l : list V) : swo c -> psort ok c l = Ok (isort c l).
Proof.
  intros Hc. unfold psort.
  rewrite (sort_run c MERGE_CUT_OFF SORT_CUT_OFF Hc ok [false] [true] (heap_of [false] l) l).
  - simpl. rewrite <- (isort_length c l) at 1. apply read_back_harr, harr_hset.
  - unfold MERGE_CUT_OFF. lia.
  - unfold SORT_CUT_OFF. lia.
  - done.
  - intros i Hi. unfold heap_of. by rewrite hset_lookup.
  - apply harr_hset.
Qed.
