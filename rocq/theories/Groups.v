(** Groups.v: lists sorted by a key seen as a sequence of blocks of equal keys (no
    model definitions). *)
From Verif Require Export Count.

(** the keys in order, repeated neighbours dropped *)
Definition ids (K : list nat) : list nat :=
  fold_left (fun acc k => if decide (last acc = Some k) then acc else acc ++ [k]) K [].
Lemma ids_snoc K k : ids (K ++ [k]) = if decide (last (ids K) = Some k) then ids K else ids K ++ [k].
Proof. unfold ids. by rewrite fold_left_app. Qed.
Lemma ids_last K : last (ids K) = last K.
Proof.
  induction K as [|k K IH] using rev_ind; [done|]. rewrite ids_snoc, last_snoc.
  case_decide as Hd; [done|]. by rewrite last_snoc.
Qed.
Lemma ids_elem K k : k ∈ ids K <-> k ∈ K.
Proof.
  induction K as [|k' K IH] using rev_ind; [done|]. rewrite ids_snoc. case_decide as Hd.
  - rewrite IH, elem_of_app, elem_of_list_singleton. split; [tauto|]. intros [?| ->]; [done|].
    rewrite ids_last in Hd. apply last_Some in Hd as [l ->]. set_solver.
  - rewrite !elem_of_app, IH. done.
Qed.
Lemma ids_length K : length (ids K) <= length K.
Proof.
  induction K as [|k' K IH] using rev_ind; [done|]. rewrite ids_snoc. case_decide; rewrite ?app_length; simpl; lia.
Qed.
Lemma StronglySorted_snoc {A} (R : A -> A -> Prop) (l : list A) a :
  StronglySorted R (l ++ [a]) <-> StronglySorted R l /\ Forall (fun c => R c a) l.
Proof.
  induction l as [|c l IH]; simpl.
  - split; [|intros _; repeat constructor]. intros _. split; constructor.
  - split.
    + intros Hs. inversion_clear Hs as [|? ? Hs' Hf]. apply IH in Hs' as [H1 H2]. apply Forall_app in Hf as [Hf1 Hf2].
      split; constructor; try done. by inversion Hf2.
    + intros [H1 H2]. inversion_clear H1 as [|? ? Hs' Hf]. inversion_clear H2 as [|? ? Hc Hl].
      constructor; [by apply IH|]. apply Forall_app. split; [done|by repeat constructor].
Qed.
Lemma ids_increasing K : StronglySorted le K -> StronglySorted lt (ids K).
Proof.
  induction K as [|k K IH] using rev_ind; [intros _; constructor|]. intros [Hs Hf]%StronglySorted_snoc.
  rewrite ids_snoc. case_decide as Hd; [by apply IH|]. apply StronglySorted_snoc. split; [by apply IH|].
  pose proof (IH Hs) as Hi. apply Forall_forall. intros c Hc.
  assert (Hck : c <= k) by (apply (proj1 (ids_elem _ _)) in Hc; rewrite Forall_forall in Hf; by apply Hf).
  destruct (decide (c = k)) as [->|]; [|lia]. exfalso. apply Hd.
  destruct (last (ids K)) as [m|] eqn:Hm.
  - apply last_Some in Hm as [l Hl]. rewrite Hl in Hc, Hi. apply StronglySorted_snoc in Hi as [_ Hi].
    rewrite Forall_forall in Hi. apply elem_of_app in Hc as [Hc|Hc%elem_of_list_singleton]; [|by subst].
    specialize (Hi _ Hc). assert (m <= k).
    { rewrite Forall_forall in Hf. apply Hf, ids_elem. rewrite Hl. set_solver. }
    lia.
  - apply last_None in Hm. rewrite Hm in Hc. by apply elem_of_nil in Hc.
Qed.
Lemma increasing_NoDup K : StronglySorted lt K -> NoDup K.
Proof.
  induction 1 as [|k K Hs IH Hf]; constructor; [|done]. intros Hk. rewrite Forall_forall in Hf. specialize (Hf _ Hk). lia.
Qed.
Lemma ids_NoDup K : StronglySorted le K -> NoDup (ids K).
Proof. intros Hs. by apply increasing_NoDup, ids_increasing. Qed.
Lemma ids_distinct K : StronglySorted le K -> distinct_count K (length (ids K)).
Proof. intros Hs. exists (ids K). split; [by apply ids_NoDup|]. split; [apply ids_elem|done]. Qed.
Lemma StronglySorted_mono {A} (R R' : A -> A -> Prop) l : (forall a c, R a c -> R' a c) -> StronglySorted R l -> StronglySorted R' l.
Proof. intros HR. induction 1 as [|a l Hs IH Hf]; constructor; [done|]. eapply Forall_impl; [exact Hf|]. auto. Qed.
Lemma StronglySorted_fmap_iff {A B} (f : A -> B) (R : B -> B -> Prop) (l : list A) :
  StronglySorted R (f <$> l) <-> StronglySorted (fun a c => R (f a) (f c)) l.
Proof.
  induction l as [|a l IH]; [split; constructor|]. rewrite fmap_cons. split; intros Hs; inversion_clear Hs as [|? ? H1 H2]; constructor.
  - by apply IH.
  - rewrite Forall_fmap in H2. exact H2.
  - by apply IH.
  - by apply Forall_fmap.
Qed.

Lemma join_app {A} (l1 l2 : list (list A)) : mjoin (l1 ++ l2) = mjoin l1 ++ mjoin l2.
Proof. induction l1 as [|a l1 IH]; [done|]. cbn. rewrite <- app_assoc. by f_equal. Qed.
Section groups.
  Context {A : Type} (key : A -> nat).
  Implicit Types l : list A.
  (** the elements with key j *)
  Definition group (j : nat) l : list A := bfilter (has key j) l.
  Definition keys l : list nat := ids (key <$> l).
  (** one value per block *)
  Definition per_block {B} (F : nat -> list A -> B) l : list B := (fun j => F j (group j l)) <$> keys l.
  Lemma per_block_length {B} (F : nat -> list A -> B) l : length (per_block F l) = length (keys l).
  Proof. apply fmap_length. Qed.
  Lemma group_snoc j l a : group j (l ++ [a]) = if key a =? j then group j l ++ [a] else group j l.
  Proof. unfold group. rewrite bfilter_app. simpl. unfold has at 2. destruct (key a =? j); [done|by rewrite app_nil_r]. Qed.
  Lemma group_none j l : j ∉ key <$> l -> group j l = [].
  Proof.
    intros Hj. apply filter_none. apply Forall_forall. intros a Ha. apply Nat.eqb_neq. intros Heq. apply Hj.
    apply elem_of_list_fmap. eauto.
  Qed.
  Lemma group_some j l : j ∈ key <$> l -> group j l <> [].
  Proof.
    intros (a & -> & Ha)%elem_of_list_fmap Hn. unfold group in Hn.
    assert (a ∈ bfilter (has key (key a)) l) as Hin.
    { apply elem_of_list_In, filter_In. split; [by apply elem_of_list_In|]. apply Nat.eqb_refl. }
    rewrite Hn in Hin. by apply elem_of_nil in Hin.
  Qed.
  Lemma ksorted_snoc l a : ksorted key (l ++ [a]) -> ksorted key l /\ Forall (fun c => key c <= key a) l.
  Proof. apply StronglySorted_snoc. Qed.
  Lemma ksorted_keys l : ksorted key l <-> StronglySorted le (key <$> l).
  Proof. unfold ksorted. by rewrite StronglySorted_fmap_iff. Qed.
  (** what one more element does *)
  Lemma keys_snoc l a : keys (l ++ [a]) = if decide (last (key <$> l) = Some (key a)) then keys l else keys l ++ [key a].
  Proof. unfold keys. rewrite fmap_app. cbn [fmap list_fmap]. rewrite ids_snoc, ids_last. done. Qed.
  Lemma per_block_old {B} (F : nat -> list A -> B) l a : ksorted key (l ++ [a]) -> last (key <$> l) = Some (key a) ->
    exists L, keys l = L ++ [key a] /\ per_block F l = ((fun j => F j (group j l)) <$> L) ++ [F (key a) (group (key a) l)] /\
      per_block F (l ++ [a]) = ((fun j => F j (group j l)) <$> L) ++ [F (key a) (group (key a) l ++ [a])].
  Proof.
    intros Hs Hl. apply ksorted_snoc in Hs as [Hs Hf]. unfold per_block. rewrite keys_snoc, decide_True by done.
    assert (Hk : last (keys l) = Some (key a)) by (unfold keys; by rewrite ids_last).
    apply last_Some in Hk as [L HL]. exists L. split; [done|]. rewrite HL, !fmap_app. cbn [fmap list_fmap]. split; [done|].
    f_equal.
    - apply list_fmap_ext. intros i j Hij. rewrite group_snoc. rewrite (proj2 (Nat.eqb_neq (key a) j)); [done|].
      intros <-. apply ksorted_keys in Hs. pose proof (ids_NoDup _ Hs) as Hnd. fold (keys l) in Hnd. rewrite HL in Hnd.
      apply NoDup_app in Hnd as (_ & Hnd & _). apply elem_of_list_lookup_2 in Hij. specialize (Hnd _ Hij). set_solver.
    - rewrite group_snoc, Nat.eqb_refl. done.
  Qed.
  Lemma per_block_new {B} (F : nat -> list A -> B) l a : ksorted key (l ++ [a]) -> last (key <$> l) <> Some (key a) ->
    per_block F (l ++ [a]) = per_block F l ++ [F (key a) [a]] /\ Forall (fun c => key c < key a) l.
  Proof.
    intros Hs Hl. apply ksorted_snoc in Hs as [Hs Hf].
    assert (Hlt : Forall (fun c => key c < key a) l).
    { apply Forall_forall. intros c Hc. rewrite Forall_forall in Hf. pose proof (Hf _ Hc).
      destruct (decide (key c = key a)) as [Heq|]; [|lia]. exfalso. apply Hl.
      destruct (last l) as [d|] eqn:Hd.
      - rewrite fmap_last, Hd. cbn. f_equal. apply last_Some in Hd as [l' ->]. apply ksorted_snoc in Hs as [_ Hs].
        pose proof (Hf d ltac:(set_solver)). rewrite Forall_forall in Hs.
        apply elem_of_app in Hc as [Hc|Hc%elem_of_list_singleton]; [|by subst]. specialize (Hs _ Hc). lia.
      - apply last_None in Hd. subst l. by apply elem_of_nil in Hc. }
    split; [|done]. unfold per_block. rewrite keys_snoc, decide_False by done. rewrite fmap_app. cbn [fmap list_fmap]. f_equal.
    - apply list_fmap_ext. intros i j Hij. rewrite group_snoc. rewrite (proj2 (Nat.eqb_neq (key a) j)); [done|].
      intros <-. apply elem_of_list_lookup_2, (proj1 (ids_elem _ _)), elem_of_list_fmap in Hij as (c & Hc & Hcl).
      rewrite Forall_forall in Hlt. specialize (Hlt _ Hcl). lia.
    - rewrite group_snoc, Nat.eqb_refl. rewrite group_none; [done|]. intros (c & Hc & Hcl)%elem_of_list_fmap.
      rewrite Forall_forall in Hlt. specialize (Hlt _ Hcl). lia.
  Qed.
  (** the blocks in order are the list *)
  Lemma concat_groups l : ksorted key l -> mjoin (per_block (fun _ L => L) l) = l.
  Proof.
    induction l as [|a l IH] using rev_ind; [done|]. intros Hs. pose proof (ksorted_snoc _ _ Hs) as [Hs' _].
    destruct (decide (last (key <$> l) = Some (key a))) as [Hl|Hl].
    - destruct (per_block_old (fun _ L => L) l a Hs Hl) as (L & _ & H1 & H2). rewrite H2. specialize (IH Hs'). rewrite H1 in IH.
      rewrite join_app in *. cbn in *. rewrite app_nil_r in *. rewrite app_assoc. by rewrite IH.
    - destruct (per_block_new (fun _ L => L) l a Hs Hl) as [H1 _]. rewrite H1, join_app, IH by done. cbn. done.
  Qed.
  Lemma keys_sorted l : ksorted key l -> StronglySorted lt (keys l).
  Proof. intros Hs%ksorted_keys. by apply ids_increasing. Qed.
  Lemma keys_elem l j : j ∈ keys l <-> exists a, a ∈ l /\ key a = j.
  Proof. unfold keys. rewrite ids_elem, elem_of_list_fmap. naive_solver. Qed.
  (** block k of a sorted list starts where the smaller keys end *)
  Lemma group_slice l j : ksorted key l -> group j l = slice (cntlt (key <$> l) j) (cnteq (key <$> l) j) l.
  Proof.
    intros Hs. unfold group. rewrite <- (sorted_slice key l j Hs), cntlt_S. f_equal. lia.
  Qed.
End groups.

Section spec.
  Context {T : Type} `{Scalar T}.
  Lemma row_acc_join (Ls : list (list (elem T))) x i y :
    row_acc (mjoin Ls) x i y = fold_left (fun y L => row_acc L x i y) Ls y.
  Proof.
    revert y. induction Ls as [|L Ls IH]; intros y; [done|]. change (mjoin (L :: Ls)) with (L ++ mjoin Ls). rewrite row_acc_app. apply IH.
  Qed.
  (** a row of a matrix sorted by blocks is accumulated block by block, and only
      the blocks P that can hold elements of the row matter *)
  Lemma row_acc_blocks (key : elem T -> nat) (E : list (elem T)) x i y (P : nat -> bool) :
    ksorted key E -> (forall e, e ∈ E -> row e = i -> P (key e) = true) ->
    fold_left (fun y j => row_acc (group key j E) x i y) (bfilter P (keys key E)) y = row_acc E x i y.
  Proof.
    intros Hs HP. transitivity (fold_left (fun y j => row_acc (group key j E) x i y) (keys key E) y).
    - assert (Hsub : forall j, j ∈ keys key E -> P j = false -> forall y, row_acc (group key j E) x i y = y).
      { intros j Hj HPj y'. apply row_acc_none. apply Forall_forall. intros e He Hrow.
        apply elem_of_list_In, filter_In in He as [He Hk]. apply Nat.eqb_eq in Hk.
        rewrite <- Hk, HP in HPj; [done|by apply elem_of_list_In|done]. }
      clear -Hsub. revert y. induction (keys key E) as [|j K IH]; intros y; [done|]. cbn [List.filter].
      destruct (P j) eqn:HPj; cbn [fold_left].
      + apply IH. intros j' Hj'. apply Hsub. by right.
      + rewrite Hsub by (done || left). apply IH. intros j' Hj'. apply Hsub. by right.
    - rewrite <- (concat_groups key E Hs) at 2. rewrite row_acc_join. unfold per_block.
      generalize (keys key E). intros K. revert y. induction K as [|j K IH]; intros y; [done|]. cbn. apply IH.
  Qed.
End spec.
