(** SortSpec.v: what "stable sort" means, independently of any algorithm.

    [isort] (insertion sort) is the specification of std::stable_sort and of the
    parallel merge sort; this file shows that for a strict weak ordering it is
    the unique list that is sorted and keeps every class of equivalent
    elements in order. *)
From Verif Require Export Base.

(** A C++ "Compare": [c x y] is "x goes strictly before y". *)
Definition asym {A} (c : A -> A -> bool) := forall x y, c x y = true -> c y x = false.
Definition negtrans {A} (c : A -> A -> bool) := forall x y z, c x y = false -> c y z = false -> c x z = false.
(** strict weak ordering, as required by the C++ standard *)
Definition swo {A} (c : A -> A -> bool) := asym c /\ negtrans c.
(** [x] may stand before [y] *)
Definition cle {A} (c : A -> A -> bool) (x y : A) : Prop := c y x = false.
Definition equivb {A} (c : A -> A -> bool) (x y : A) : bool := negb (c x y) && negb (c y x).

Fixpoint insert_ {A} (c : A -> A -> bool) (x : A) (l : list A) : list A :=
  match l with
  | [] => [x]
  | y :: l' => if c y x then y :: insert_ c x l' else x :: l
  end.
Fixpoint isort {A} (c : A -> A -> bool) (l : list A) : list A :=
  match l with [] => [] | x :: l' => insert_ c x (isort c l') end.

(** stdlib-style boolean filter *)
Notation bfilter := List.filter.

Section facts.
  Context {A : Type} (c : A -> A -> bool) (Hc : swo c).
  Notation le := (cle c).

  Lemma cle_refl x : le x x.
  Proof. unfold cle. destruct (c x x) eqn:E; [|done]. by rewrite (proj1 Hc x x E) in E. Qed.
  Lemma cle_trans x y z : le x y -> le y z -> le x z.
  Proof. unfold cle. intros H1 H2. exact (proj2 Hc z y x H2 H1). Qed.
  Lemma cle_total x y : le x y \/ le y x.
  Proof. unfold cle. destruct (c y x) eqn:E; [right|by left]. by apply (proj1 Hc). Qed.
  Lemma clt_cle x y : c x y = true -> le x y.
  Proof. apply (proj1 Hc). Qed.
  Lemma clt_cle_trans x y z : c x y = true -> le y z -> c x z = true.
  Proof.
    unfold cle. intros H1 H2. destruct (c x z) eqn:E; [done|].
    by rewrite (proj2 Hc x z y E H2) in H1.
  Qed.
  Lemma cle_clt_trans x y z : le x y -> c y z = true -> c x z = true.
  Proof.
    unfold cle. intros H1 H2. destruct (c x z) eqn:E; [done|].
    by rewrite (proj2 Hc y x z H1 E) in H2.
  Qed.
  Lemma equivb_refl x : equivb c x x = true.
  Proof. unfold equivb. pose proof (cle_refl x) as H. unfold cle in H. by rewrite H. Qed.
  Lemma equivb_true x y : equivb c x y = true <-> le x y /\ le y x.
  Proof.
    unfold equivb, cle. destruct (c x y), (c y x); simpl; naive_solver.
  Qed.
  Lemma equivb_cong x y z : equivb c x y = true -> equivb c x z = equivb c y z.
  Proof.
    intros Hxy. apply equivb_true in Hxy as [H1 H2].
    destruct (equivb c y z) eqn:E.
    - apply equivb_true in E as [H3 H4]. apply equivb_true. split; eapply cle_trans; eauto.
    - destruct (equivb c x z) eqn:E'; [|done].
      apply equivb_true in E' as [H3 H4]. rewrite <- E. symmetry. apply equivb_true.
      split; eapply cle_trans; eauto.
  Qed.

  Lemma insert_perm x l : insert_ c x l ≡ₚ x :: l.
  Proof.
    induction l as [|y l IH]; simpl; [done|].
    destruct (c y x); [|done]. rewrite IH. apply Permutation_swap.
  Qed.
  Lemma isort_perm l : isort c l ≡ₚ l.
  Proof. induction l as [|x l IH]; simpl; [done|]. by rewrite insert_perm, IH. Qed.
  Lemma isort_length l : length (isort c l) = length l.
  Proof. apply Permutation_length, isort_perm. Qed.

  Lemma insert_sorted x l : StronglySorted le l -> StronglySorted le (insert_ c x l).
  Proof.
    intros H. induction H as [|y l Hl IH Hy]; simpl.
    - repeat constructor.
    - destruct (c y x) eqn:E.
      + constructor; [exact IH|]. rewrite Forall_forall in Hy |- *. intros z Hz.
        rewrite insert_perm in Hz. apply elem_of_cons in Hz as [->|Hz]; [by apply clt_cle|auto].
      + constructor; [by constructor|]. constructor; [exact E|].
        eapply Forall_impl; [exact Hy|]. intros z Hz. eapply cle_trans; [exact E|exact Hz].
  Qed.
  Lemma isort_sorted l : StronglySorted le (isort c l).
  Proof. induction l as [|x l IH]; simpl; [constructor|by apply insert_sorted]. Qed.

  (** filtering commutes with sorting (stability in its strongest form) *)
  Lemma filter_insert P x l : StronglySorted le l ->
    bfilter P (insert_ c x l) = if P x then insert_ c x (bfilter P l) else bfilter P l.
  Proof.
    intros H. induction H as [|y l Hl IH Hy]; simpl.
    - by destruct (P x).
    - destruct (c y x) eqn:E; simpl.
      + rewrite IH. destruct (P x), (P y); simpl; rewrite ?E; done.
      + destruct (P x) eqn:Px; [|done]. destruct (P y) eqn:Py; simpl; rewrite ?E; [done|].
        (* every survivor of l is not strictly before x *)
        assert (Hall : Forall (fun z => c z x = false) (bfilter P l)).
        { apply Forall_forall. intros z Hz. apply elem_of_list_In, filter_In in Hz as [Hz _].
          apply elem_of_list_In in Hz. rewrite Forall_forall in Hy.
          exact (cle_trans x y z E (Hy z Hz)). }
        destruct (bfilter P l) as [|z l0]; simpl; [done|].
        by rewrite (Forall_inv Hall).
  Qed.
  Lemma filter_isort P l : bfilter P (isort c l) = isort c (bfilter P l).
  Proof.
    induction l as [|x l IH]; simpl; [done|].
    rewrite filter_insert by apply isort_sorted. rewrite IH. by destruct (P x).
  Qed.
  Lemma isort_id l : StronglySorted le l -> isort c l = l.
  Proof.
    intros H. induction H as [|y l Hl IH Hy]; simpl; [done|]. rewrite IH.
    destruct l as [|z l']; [done|]. simpl. by rewrite (Forall_inv Hy).
  Qed.
  Lemma isort_idemp l : isort c (isort c l) = isort c l.
  Proof. apply isort_id, isort_sorted. Qed.
  Lemma filter_equiv_sorted x l : StronglySorted le (bfilter (equivb c x) l).
  Proof.
    induction l as [|y l IH]; simpl; [constructor|].
    destruct (equivb c x y) eqn:E; [|done]. constructor; [done|].
    apply Forall_forall. intros z Hz. apply elem_of_list_In, filter_In in Hz as [_ Hz].
    apply equivb_true in E as [_ E]. apply equivb_true in Hz as [Hz _].
    exact (cle_trans _ _ _ E Hz).
  Qed.
  Lemma isort_stable x l : bfilter (equivb c x) (isort c l) = bfilter (equivb c x) l.
  Proof. rewrite filter_isort. apply isort_id, filter_equiv_sorted. Qed.

  (** A sorted list is determined by its equivalence classes in order. *)
  Lemma sorted_unique l1 l2 :
    StronglySorted le l1 -> StronglySorted le l2 ->
    (forall x, bfilter (equivb c x) l1 = bfilter (equivb c x) l2) -> l1 = l2.
  Proof.
    intros H1. revert l2. induction H1 as [|a l1 Hl1 IH Ha]; intros l2 H2 Hf.
    - destruct l2 as [|b l2]; [done|]. specialize (Hf b). simpl in Hf.
      by rewrite equivb_refl in Hf.
    - pose proof (Hf a) as Hfa. simpl in Hfa. rewrite equivb_refl in Hfa.
      assert (Ha2 : In a l2).
      { assert (In a (bfilter (equivb c a) l2)) as Hin by (rewrite <- Hfa; left; done).
        apply filter_In in Hin; tauto. }
      destruct l2 as [|b l2]; [done|].
      inversion H2 as [|? ? Hl2 Hb]; subst.
      assert (Hba : le b a).
      { destruct Ha2 as [->|Hin]; [apply cle_refl|]. rewrite Forall_forall in Hb.
        by apply Hb, elem_of_list_In. }
      assert (Hb1 : In b (a :: l1)).
      { assert (In b (bfilter (equivb c b) (a :: l1))) as Hin.
        { rewrite Hf. simpl. rewrite equivb_refl. by left. }
        apply filter_In in Hin; tauto. }
      assert (Hab : le a b).
      { destruct Hb1 as [->|Hin]; [apply cle_refl|]. rewrite Forall_forall in Ha.
        by apply Ha, elem_of_list_In. }
      assert (Eab : equivb c a b = true) by (by apply equivb_true).
      simpl in Hfa. rewrite Eab in Hfa. injection Hfa as -> Hfa'.
      f_equal. apply IH; [done|]. intros x. specialize (Hf x). simpl in Hf.
      destruct (equivb c x b); congruence.
  Qed.
  Lemma isort_unique l l' :
    StronglySorted le l' -> (forall x, bfilter (equivb c x) l' = bfilter (equivb c x) l) ->
    l' = isort c l.
  Proof.
    intros Hs Hf. apply sorted_unique; [done|apply isort_sorted|].
    intros x. by rewrite Hf, isort_stable.
  Qed.

  (** sorted, permutation and classes in order: the definition of a stable sort *)
  Definition stable_sort_of (l l' : list A) : Prop :=
    StronglySorted le l' /\ l' ≡ₚ l /\ forall x, bfilter (equivb c x) l' = bfilter (equivb c x) l.
  Lemma isort_stable_sort_of l : stable_sort_of l (isort c l).
  Proof. split; [apply isort_sorted|split; [apply isort_perm|intros; apply isort_stable]]. Qed.

  (** ** Merging *)
  Fixpoint merge (l1 : list A) : list A -> list A :=
    match l1 with
    | [] => fun l2 => l2
    | x :: l1' =>
        fix merge_r (l2 : list A) : list A :=
          match l2 with
          | [] => x :: l1'
          | y :: l2' => if c y x then y :: merge_r l2' else x :: merge l1' (y :: l2')
          end
    end.
  Lemma merge_nil_r l : merge l [] = l.
  Proof. by destruct l. Qed.
  Lemma merge_cons x l1 y l2 :
    merge (x :: l1) (y :: l2) = if c y x then y :: merge (x :: l1) l2 else x :: merge l1 (y :: l2).
  Proof. done. Qed.
  Lemma merge_perm l1 l2 : merge l1 l2 ≡ₚ l1 ++ l2.
  Proof.
    revert l2. induction l1 as [|x l1 IH1]; [done|]. intros l2.
    induction l2 as [|y l2 IH2]; [by rewrite merge_nil_r, app_nil_r|].
    rewrite merge_cons. destruct (c y x).
    - rewrite IH2. by rewrite Permutation_middle.
    - by rewrite IH1.
  Qed.
  Lemma merge_length l1 l2 : length (merge l1 l2) = length l1 + length l2.
  Proof. rewrite (Permutation_length (merge_perm l1 l2)). apply app_length. Qed.
  Lemma merge_sorted l1 l2 : StronglySorted le l1 -> StronglySorted le l2 -> StronglySorted le (merge l1 l2).
  Proof.
    intros H1. revert l2. induction H1 as [|x l1 Hl1 IH1 Hx]; [done|]. intros l2 H2.
    induction H2 as [|y l2 Hl2 IH2 Hy].
    { rewrite merge_nil_r. by constructor. }
    rewrite merge_cons. destruct (c y x) eqn:E.
    - constructor; [done|]. rewrite merge_perm. apply Forall_app. split; [|done].
      constructor; [by apply clt_cle|]. eapply Forall_impl; [exact Hx|].
      intros z Hz. eapply cle_trans; [by apply clt_cle|done].
    - constructor; [apply IH1; by constructor|]. rewrite merge_perm. apply Forall_app. split; [done|].
      constructor; [exact E|]. eapply Forall_impl; [exact Hy|].
      intros z Hz. eapply cle_trans; [exact E|done].
  Qed.
  Lemma filter_none (P : A -> bool) l : Forall (fun x => P x = false) l -> bfilter P l = [].
  Proof. induction 1 as [|x l Hx Hl IH]; simpl; [done|]. by rewrite Hx. Qed.
  Lemma merge_filter z l1 l2 : StronglySorted le l1 -> StronglySorted le l2 ->
    bfilter (equivb c z) (merge l1 l2) = bfilter (equivb c z) l1 ++ bfilter (equivb c z) l2.
  Proof.
    intros H1. revert l2. induction H1 as [|x l1 Hl1 IH1 Hx]; [done|]. intros l2 H2.
    induction H2 as [|y l2 Hl2 IH2 Hy].
    { by rewrite merge_nil_r, app_nil_r. }
    rewrite merge_cons. destruct (c y x) eqn:E.
    - cbn [List.filter]. cbn [List.filter] in IH2. rewrite IH2.
      destruct (equivb c z y) eqn:Ey; [|done].
      (* y is strictly before x and all of l1, so the left part has nothing equivalent *)
      assert (Hnone : bfilter (equivb c z) (x :: l1) = []).
      { apply filter_none. apply Forall_forall. intros w Hw.
        destruct (equivb c z w) eqn:Ew; [|done].
        apply equivb_true in Ey as [Ey _]. apply equivb_true in Ew as [Ew1 Ew2].
        assert (Hxw : le x w).
        { apply elem_of_cons in Hw as [->|Hw]; [apply cle_refl|]. rewrite Forall_forall in Hx. auto. }
        assert (Hyw : c y w = true) by (by eapply clt_cle_trans).
        assert (Hwy : le w y) by (by eapply cle_trans).
        unfold cle in Hwy. congruence. }
      cbn [List.filter] in Hnone. rewrite Hnone. done.
    - cbn [List.filter]. rewrite IH1 by (by constructor). by destruct (equivb c z x).
  Qed.
  Lemma isort_app l1 l2 : isort c (l1 ++ l2) = merge (isort c l1) (isort c l2).
  Proof.
    symmetry. apply isort_unique; [apply merge_sorted; apply isort_sorted|].
    intros x. rewrite merge_filter by apply isort_sorted.
    rewrite !isort_stable. by rewrite List.filter_app.
  Qed.

  (** splitting a merge: if everything on the left may precede everything on the
      right, the merge is the concatenation of the two merges *)
  Lemma merge_split a1 a2 b1 b2 :
    StronglySorted le (a1 ++ a2) -> StronglySorted le (b1 ++ b2) ->
    (forall x y, In x a1 -> In y b2 -> le x y) ->
    (forall y x, In y b1 -> In x a2 -> c y x = true) ->
    merge (a1 ++ a2) (b1 ++ b2) = merge a1 b1 ++ merge a2 b2.
  Proof.
    revert b1. induction a1 as [|x a1 IH]; intros b1 Ha Hb Hab Hba.
    - simpl in Ha |- *. induction b1 as [|y b1 IHb]; [done|]. destruct a2 as [|x a2].
      { done. }
      change ((y :: b1) ++ b2) with (y :: (b1 ++ b2)). rewrite merge_cons.
      rewrite (Hba y x) by (by left). simpl ((y :: b1) ++ _). cbn [app]. f_equal. apply IHb.
      + by inversion Hb.
      + intros y' x' Hy' Hx'. apply Hba; [by right|done].
    - revert Hb Hab Hba. induction b1 as [|y b1 IHb]; intros Hb Hab Hba.
      + destruct b2 as [|y b2].
        { simpl. by rewrite !merge_nil_r. }
        change ((x :: a1) ++ a2) with (x :: (a1 ++ a2)). simpl ([] ++ _).
        rewrite merge_cons. rewrite (Hab x y) by (by left).
        rewrite merge_nil_r. simpl. f_equal.
        specialize (IH []). rewrite merge_nil_r in IH. apply IH; try done.
        * by inversion Ha.
        * intros x' y' Hx' Hy'. apply Hab; [by right|done].
      + change ((x :: a1) ++ a2) with (x :: (a1 ++ a2)). change ((y :: b1) ++ b2) with (y :: (b1 ++ b2)).
        rewrite !merge_cons. destruct (c y x).
        * simpl. f_equal. apply IHb; [by inversion Hb|done|].
          intros y' x' Hy' Hx'. apply Hba; [by right|done].
        * simpl. f_equal. apply (IH (y :: b1)); try done.
          -- by inversion Ha.
          -- intros x' y' Hx' Hy'. apply Hab; [by right|done].
  Qed.
End facts.

(** Sorting only looks at the comparator's answers on the list's elements. *)
Lemma isort_ext {A} (c1 c2 : A -> A -> bool) l :
  (forall x y, In x l -> In y l -> c1 x y = c2 x y) -> isort c1 l = isort c2 l.
Proof.
  induction l as [|x l IH]; intros H; [done|]. simpl.
  rewrite IH by (intros; apply H; by right).
  assert (Hin : forall y, In y (isort c2 l) -> c1 y x = c2 y x).
  { intros y Hy. apply H; [|by left]. right.
    apply elem_of_list_In. apply elem_of_list_In in Hy. by rewrite isort_perm in Hy. }
  clear IH. induction (isort c2 l) as [|y l0 IHl]; [done|]. simpl.
  rewrite (Hin y) by (by left). destruct (c2 y x); [|done]. f_equal. apply IHl.
  intros z Hz. apply Hin. by right.
Qed.
Lemma isort_map {A B} (cA : A -> A -> bool) (cB : B -> B -> bool) (f : A -> B) l :
  (forall x y, cA x y = cB (f x) (f y)) -> map f (isort cA l) = isort cB (map f l).
Proof.
  intros H. induction l as [|x l IH]; [done|]. simpl. rewrite <- IH.
  clear IH. induction (isort cA l) as [|y l0 IHl]; [done|]. simpl. rewrite <- H.
  destruct (cA y x); [|done]. simpl. f_equal. exact IHl.
Qed.

(** Comparators that compare a key. *)
Definition bykey {A} (k : A -> nat) (x y : A) : bool := k x <? k y.
Lemma swo_bykey {A} (k : A -> nat) : swo (bykey k).
Proof.
  unfold bykey. split; [intros x y | intros x y z]; rewrite ?Nat.ltb_lt, ?Nat.ltb_ge; lia.
Qed.
(** lexicographic composition *)
Definition lex {A} (k : A -> nat) (c : A -> A -> bool) (x y : A) : bool :=
  (k x <? k y) || ((k x =? k y) && c x y).
Lemma swo_lex {A} (k : A -> nat) (c : A -> A -> bool) : swo c -> swo (lex k c).
Proof.
  intros [Ha Hn]. unfold lex. split.
  - intros x y. rewrite orb_true_iff, andb_true_iff, orb_false_iff, andb_false_iff.
    rewrite Nat.ltb_lt, Nat.ltb_ge, Nat.eqb_eq, Nat.eqb_neq. intros [H|[H1 H2]].
    + lia.
    + split; [lia|]. right. by apply Ha.
  - intros x y z. rewrite !orb_false_iff, !andb_false_iff, !Nat.ltb_ge, !Nat.eqb_neq.
    intros [H1 [H2|H2]] [H3 [H4|H4]]; split; try lia.
    destruct (decide (k x = k z)); [|by left]. right. by eapply Hn.
Qed.
