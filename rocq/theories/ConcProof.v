(** ConcProof.v: programs in a larger heap, and two programs side by side.  (No model
    definitions in this file.) *)
From Verif Require Export RangeProof.

Section frame.
  Context {V : Type}.
  Implicit Types (h : heap V) (D : buf -> Prop).

  (** every cell of h lies in a buffer of D *)
  Definition within D h : Prop := forall l : list bool * nat, is_Some (h !! l) -> D l.1.
  (** no cell of h lies in a buffer of D *)
  Definition outside_of D h : Prop := forall l : list bool * nat, D l.1 -> h !! l = None.

  Lemma union_inside D h h0 (l : list bool * nat) : outside_of D h0 -> D l.1 -> (h ∪ h0) !! l = h !! l.
  Proof. intros Ho Hl. rewrite lookup_union, (Ho l Hl). by destruct (h !! l). Qed.
  Lemma union_some h h0 (l : list bool * nat) c : h !! l = Some c -> (h ∪ h0) !! l = Some c.
  Proof. intros Hl. by apply lookup_union_Some_l. Qed.
  Lemma upd_union D c (l : list bool * nat) h h0 : outside_of D h0 -> D l.1 -> upd c l (h ∪ h0) = upd c l h ∪ h0.
  Proof.
    intros Ho Hl. apply map_eq. intros l'. rewrite upd_lookup, !lookup_union, upd_lookup.
    destruct (decide (l' = l)) as [->|]; [|done]. rewrite (Ho l Hl). by destruct c.
  Qed.
  Lemma set_cells_union D b n c h h0 : outside_of D h0 -> D b -> set_cells b n c (h ∪ h0) = set_cells b n c h ∪ h0.
  Proof.
    intros Ho Hb. induction n as [|n IH]; [done|]. cbn [set_cells]. rewrite IH. by apply (upd_union D).
  Qed.
  Lemma within_upd D c (l : list bool * nat) h : within D h -> D l.1 -> within D (upd c l h).
  Proof. intros Hw Hl l'. rewrite upd_lookup. destruct (decide (l' = l)) as [->|]; [done|apply Hw]. Qed.
  Lemma within_set_cells D b n c h : within D h -> D b -> within D (set_cells b n c h).
  Proof. intros Hw Hb. induction n as [|n IH]; [done|]. cbn [set_cells]. by apply within_upd. Qed.
  Lemma live_within D b n h : within D h -> 0 < n -> all_live b n h -> D b.
  Proof. intros Hw Hn Hl. apply (Hw (b, 0)), Hl. done. Qed.
  Lemma set_cells_0 b c h : set_cells b 0 c h = h.
  Proof. done. Qed.

  (** a program that does not fault on h does in h ∪ h0 what it does in h *)
  Lemma frame_step {A} (c c' : prog V A * heap V) : step A c c' -> forall D h h0, c.2 = h ∪ h0 -> within D h -> outside_of D h0 -> allocs D c.1 -> ~ faults c.1 h ->
    exists h', c'.2 = h' ∪ h0 /\ step A (c.1, h) (c'.1, h') /\ within D h' /\ allocs D c'.1.
  Proof.
    induction 1 as [A l k g v Hv|A l v k g c Hc|A b n c k g Hf|A b n k g Hl|A p q k g p' g' _ IH|A p q k g q' g' _ IH|A k g];
      intros D h h0 Hg Hw Ho Ha Hnf; cbn [fst snd allocs faults] in *; subst g.
    - destruct (h !! l) as [[v'|]|] eqn:E; [|exfalso; apply Hnf; intros w; congruence..].
      rewrite (union_some h h0 l _ E) in Hv. injection Hv as ->. exists h. split; [done|]. split; [by apply S_read|]. by split.
    - destruct (h !! l) as [c'|] eqn:E; [|done]. exists (upd (Some (Some v)) l h).
      assert (D l.1) by (apply Hw; eauto). split; [by apply (upd_union D)|]. split; [by eapply S_write|]. split; [by apply within_upd|done].
    - destruct Ha as [Hb Ha]. exists (set_cells b n (Some c) h). split; [by apply (set_cells_union D)|]. split.
      { apply S_alloc. intros i Hi. specialize (Hf i Hi). rewrite lookup_union in Hf. destruct (h !! (b, i)); [|done]. by destruct (h0 !! (b, i)). }
      split; [by apply within_set_cells|done].
    - assert (Hl' : all_live b n h).
      { destruct (all_liveb b n h) eqn:E; [by apply all_liveb_spec|]. exfalso. apply Hnf. intros Hx. apply all_liveb_spec in Hx. congruence. }
      exists (set_cells b n None h). destruct n as [|n]; [split; [done|]; split; [by apply S_free|by split]|].
      assert (Hb : D b) by (by apply (live_within D b (S n) h); [|lia|]). split; [by apply (set_cells_union D)|]. split; [by apply S_free|].
      split; [by apply within_set_cells|done].
    - destruct Ha as (H1 & H2 & H3). destruct (IH D h h0 eq_refl Hw Ho H1) as (h' & -> & I1 & I2 & I3); [tauto|].
      exists h'. split; [done|]. split; [by apply S_left|]. by split.
    - destruct Ha as (H1 & H2 & H3). destruct (IH D h h0 eq_refl Hw Ho H2) as (h' & -> & I1 & I2 & I3); [tauto|].
      exists h'. split; [done|]. split; [by apply S_right|]. by split.
    - exists h. split; [done|]. split; [apply S_join|]. split; [done|tauto].
  Qed.
  Lemma frame_faults {A} (p : prog V A) : forall D h h0, outside_of D h0 -> allocs D p -> ~ faults p h -> ~ faults p (h ∪ h0).
  Proof.
    induction p as [A a|A e|A l k IH|A l v k IH|A b n c k IH|A b n k IH|A p IHp q IHq k IHk]; intros D h h0 Ho Ha Hnf; cbn [allocs faults] in *; try done.
    - intros Hx. apply Hnf. intros v Hv. by apply (Hx v), union_some.
    - intros Hx. apply Hnf. rewrite lookup_union in Hx. destruct (h !! l); [|done]. by destruct (h0 !! l).
    - intros Hx. apply Hnf. intros Hf. apply Hx. intros i Hi. rewrite (union_inside D) by (done || apply Ha). by apply Hf.
    - intros Hx. apply Hnf. intros Hl. apply Hx. intros i Hi. destruct (Hl i Hi) as [c Hc]. exists c. by apply union_some.
    - destruct Ha as (H1 & H2 & _). specialize (IHp D h h0 Ho H1). specialize (IHq D h h0 Ho H2). tauto.
  Qed.
  Lemma frame_run {A} (p p' : prog V A) g g' : rtc (step A) (p, g) (p', g') -> forall D h h0, g = h ∪ h0 -> within D h -> outside_of D h0 -> allocs D p ->
    (forall p'' h'', rtc (step A) (p, h) (p'', h'') -> ~ faults p'' h'') ->
    exists h', g' = h' ∪ h0 /\ rtc (step A) (p, h) (p', h') /\ within D h' /\ allocs D p'.
  Proof.
    intros Hr. remember (p, g) as c eqn:Ec. remember (p', g') as c' eqn:Ec'. revert p g Ec p' g' Ec'.
    induction Hr as [c|c c1 c2 H1 _ IH]; intros p g -> p' g' Ec'.
    - injection Ec' as -> ->. intros D h h0 -> Hw Ho Ha _. exists h. split; [done|]. split; [apply rtc_refl|]. by split.
    - intros D h h0 Hg Hw Ho Ha Hnf. destruct c1 as [p1 g1].
      destruct (frame_step _ _ H1 D h h0 Hg Hw Ho Ha (Hnf _ _ (rtc_refl _ _))) as (h1 & Hg1 & Hs & Hw1 & Ha1). cbn [fst snd] in *.
      destruct (IH p1 g1 eq_refl p' g' Ec' D h1 h0 Hg1 Hw1 Ho Ha1) as (h' & I1 & I2 & I3 & I4).
      { intros p'' h'' Hx. apply Hnf. by eapply rtc_l. }
      exists h'. split; [done|]. split; [by eapply rtc_l|]. by split.
  Qed.
  Lemma step_union {A} (c c' : prog V A * heap V) : step A c c' -> forall D h0, within D c.2 -> outside_of D h0 -> allocs D c.1 ->
    step A (c.1, c.2 ∪ h0) (c'.1, c'.2 ∪ h0).
  Proof.
    induction 1 as [A l k g v Hv|A l v k g c Hc|A b n c k g Hf|A b n k g Hl|A p q k g p' g' _ IH|A p q k g q' g' _ IH|A k g];
      intros D h0 Hw Ho Ha; cbn [fst snd allocs] in *.
    - apply S_read. by apply union_some.
    - rewrite <- (upd_union D) by (done || apply Hw; eauto). eapply S_write. by apply union_some.
    - destruct Ha as [Hb Ha]. rewrite <- (set_cells_union D) by done. apply S_alloc. intros i Hi. rewrite (union_inside D) by done. by apply Hf.
    - assert (Hl' : all_live b n (g ∪ h0)) by (intros i Hi; destruct (Hl i Hi) as [c Hc]; exists c; by apply union_some).
      destruct n as [|n]; [by apply S_free|]. assert (Hb : D b) by (by apply (live_within D b (S n) g); [|lia|]).
      rewrite <- (set_cells_union D) by done. by apply S_free.
    - destruct Ha as (H1 & H2 & H3). apply S_left. by apply (IH D).
    - destruct Ha as (H1 & H2 & H3). apply S_right. by apply (IH D).
    - apply S_join.
  Qed.
  (** a program works in a larger heap as it does alone, and leaves the rest as it is *)
  Lemma all_schedules_frame {A} D (p : prog V A) h a hf h0 : all_schedules p h a hf -> allocs D p -> within D h -> outside_of D h0 ->
    all_schedules p (h ∪ h0) a (hf ∪ h0).
  Proof.
    intros [_ Hs] Ha Hw Ho. split; [apply step_acc|]. intros p' g' Hr.
    destruct (frame_run p p' _ g' Hr D h h0 eq_refl Hw Ho Ha) as (h' & -> & Hr' & Hw' & Ha').
    { intros p'' h'' Hx. by destruct (Hs p'' h'' Hx). }
    destruct (Hs p' h' Hr') as (H1 & H2 & H3). split; [by apply (frame_faults p' D)|]. split; [done|].
    destruct H3 as [[[p2 h2] H3]|[-> ->]]; [left|by right]. eexists. by apply (step_union _ _ H3 D).
  Qed.

  (** ** two programs side by side *)
  Lemma next_within {A} (p : prog V A) : forall D h (l : list bool * nat) w, within D h -> allocs D p -> ~ faults p h -> next p l w -> D l.1.
  Proof.
    induction p as [A a|A e|A l' k IH|A l' v k IH|A b n c k IH|A b n k IH|A p IHp q IHq k IHk]; intros D h l w Hw Ha Hnf Hn; cbn [allocs faults next] in *; try done.
    - destruct Hn as [-> _]. destruct (h !! l') eqn:E; [apply Hw; eauto|]. exfalso. apply Hnf. congruence.
    - destruct Hn as [-> _]. destruct (h !! l') eqn:E; [apply Hw; eauto|done].
    - destruct Hn as (-> & _ & _). apply Ha.
    - destruct Hn as (-> & Hi & _). destruct (all_liveb b n h) eqn:E.
      + apply all_liveb_spec in E. apply (live_within D b n h); [done|lia|done].
      + exfalso. apply Hnf. intros Hx. apply all_liveb_spec in Hx. congruence.
    - destruct Ha as (H1 & H2 & _). destruct Hn as [Hn|Hn]; [eapply IHp|eapply IHq]; eauto; tauto.
  Qed.
  Definition apart (D1 D2 : buf -> Prop) : Prop := forall b, D1 b -> D2 b -> False.
  Lemma within_outside D1 D2 h : apart D1 D2 -> within D2 h -> outside_of D1 h.
  Proof. intros Hd Hw l Hl. destruct (h !! l) eqn:E; [|done]. exfalso. apply (Hd l.1 Hl). apply Hw. eauto. Qed.
  Lemma union_swap D1 D2 (h1 h2 : heap V) : apart D1 D2 -> within D1 h1 -> within D2 h2 -> h1 ∪ h2 = h2 ∪ h1.
  Proof.
    intros Hd H1 H2. apply map_union_comm, map_disjoint_spec. intros l c1 c2 E1 E2. apply (Hd l.1); [apply H1|apply H2]; eauto.
  Qed.
  Lemma fork_runs D1 D2 (p q : prog V unit) h1 h2 c : apart D1 D2 -> within D1 h1 -> within D2 h2 -> allocs D1 p -> allocs D2 q ->
    (forall p' h', rtc (step unit) (p, h1) (p', h') -> ~ faults p' h') -> (forall q' h', rtc (step unit) (q, h2) (q', h') -> ~ faults q' h') ->
    rtc (step unit) (Fork p q (Ret tt), h1 ∪ h2) c ->
    exists p' q' h1' h2', rtc (step unit) (p, h1) (p', h1') /\ rtc (step unit) (q, h2) (q', h2') /\ within D1 h1' /\ within D2 h2' /\ allocs D1 p' /\ allocs D2 q' /\
      (c = (Fork p' q' (Ret tt), h1' ∪ h2') \/ (p' = Ret tt /\ q' = Ret tt /\ c = (Ret tt, h1' ∪ h2'))).
  Proof.
    intros Hd W1 W2 A1 A2 N1 N2 Hr. remember (Fork p q (Ret tt), h1 ∪ h2) as c0 eqn:Ec.
    revert p q h1 h2 Ec W1 W2 A1 A2 N1 N2. induction Hr as [c0|c0 c1 c2 Hs Hr IH]; intros p q h1 h2 -> W1 W2 A1 A2 N1 N2.
    - exists p, q, h1, h2. split; [apply rtc_refl|]. split; [apply rtc_refl|]. repeat (split; [done|]). by left.
    - inversion Hs as [| | | |p0 q0 k0 g p' g' Hp|p0 q0 k0 g q' g' Hq|k0 g]; subst.
      + destruct (frame_step _ _ Hp D1 h1 h2 eq_refl W1 (within_outside D1 D2 h2 Hd W2) A1 (N1 _ _ (rtc_refl _ _))) as (h1' & Hg & Hs1 & W1' & A1'). cbn [fst snd] in *. subst g'.
        destruct (IH p' q h1' h2 eq_refl W1' W2 A1' A2) as (p2 & q2 & h1'' & h2'' & R1 & R2 & Rest).
        { intros p3 h3 Hx. apply N1. by eapply rtc_l. } { done. }
        exists p2, q2, h1'', h2''. split; [by eapply rtc_l|]. by split.
      + assert (Hd' : apart D2 D1) by (intros b H2' H1'; by apply (Hd b)).
        destruct (frame_step _ _ Hq D2 h2 h1 (union_swap D1 D2 h1 h2 Hd W1 W2) W2 (within_outside D2 D1 h1 Hd' W1) A2 (N2 _ _ (rtc_refl _ _))) as (h2' & Hg & Hs2 & W2' & A2').
        cbn [fst snd] in *. subst g'.
        destruct (IH p q' h1 h2') as (p2 & q2 & h1'' & h2'' & R1 & R2 & Rest); try done.
        { by rewrite (union_swap D1 D2 h1 h2' Hd W1 W2'). } { intros q3 h3 Hx. apply N2. by eapply rtc_l. }
        exists p2, q2, h1'', h2''. split; [done|]. split; [by eapply rtc_l|done].
      + exists (Ret tt), (Ret tt), h1, h2. split; [apply rtc_refl|]. split; [apply rtc_refl|]. repeat (split; [done|]). right. split; [done|]. split; [done|].
        inversion Hr as [|c1 c3 c4 Hs' _]; [done|]. subst. inversion Hs'.
  Qed.
  (** side by side each does what it does alone *)
  Lemma all_schedules_fork D1 D2 (p q : prog V unit) h1 h2 hf1 hf2 : apart D1 D2 -> within D1 h1 -> within D2 h2 -> allocs D1 p -> allocs D2 q ->
    all_schedules p h1 tt hf1 -> all_schedules q h2 tt hf2 -> all_schedules (Fork p q (Ret tt)) (h1 ∪ h2) tt (hf1 ∪ hf2).
  Proof.
    intros Hd W1 W2 A1 A2 S1 S2. split; [apply step_acc|]. intros c' g' Hr.
    destruct (fork_runs D1 D2 p q h1 h2 (c', g') Hd W1 W2 A1 A2) as (p' & q' & h1' & h2' & R1 & R2 & W1' & W2' & A1' & A2' & Hc); [| |done|].
    { intros p'' h'' Hx. by destruct S1 as [_ S1]; destruct (S1 _ _ Hx). } { intros p'' h'' Hx. by destruct S2 as [_ S2]; destruct (S2 _ _ Hx). }
    destruct S1 as [_ S1], S2 as [_ S2]. destruct (S1 _ _ R1) as (F1 & G1 & E1). destruct (S2 _ _ R2) as (F2 & G2 & E2).
    assert (Hd' : apart D2 D1) by (intros b H2' H1'; by apply (Hd b)).
    pose proof (within_outside D1 D2 h2' Hd W2') as O2. pose proof (within_outside D2 D1 h1' Hd' W1') as O1.
    destruct Hc as [Hc|(-> & -> & Hc)]; injection Hc as -> ->.
    - cbn [faults race]. split; [|split].
      + intros [Hx|Hx]; [by apply (frame_faults p' D1 h1' h2')|]. rewrite (union_swap D1 D2 h1' h2') in Hx by done. by apply (frame_faults q' D2 h2' h1').
      + intros [Hx|[Hx|(l & w1 & w2 & Hx1 & Hx2 & _)]]; [done|done|]. apply (Hd l.1); [by eapply next_within|by eapply next_within].
      + left. destruct E1 as [[[p2 g2] Hs]|[-> ->]].
        { eexists. apply S_left. apply (step_union _ _ Hs D1 h2'); done. }
        destruct E2 as [[[q2 g2] Hs]|[-> ->]].
        { eexists. apply S_right. rewrite (union_swap D1 D2 hf1 h2') by done. apply (step_union _ _ Hs D2 hf1); done. }
        eexists. apply S_join.
    - split; [by intros []|]. split; [by intros []|]. right. split; [done|]. f_equal.
      + destruct E1 as [[c Hs]|[_ ->]]; [inversion Hs|done].
      + destruct E2 as [[c Hs]|[_ ->]]; [inversion Hs|done].
  Qed.
End frame.
