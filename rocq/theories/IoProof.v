(** IoProof.v: proofs about Io.v.  (No model definitions in this file.) *)
From Verif Require Export Io CsrProof.

(** the representation of the values in question is faithful: a positive number of bytes
    that decode to the value *)
Definition faithful {A} (P : A -> Prop) (R : repr A) : Prop :=
  0 < sz R /\ forall v, P v -> length (enc R v) = sz R /\ dec R (enc R v) = v.

Lemma le_bytes_length k n : length (le_bytes k n) = k.
Proof. revert n. induction k as [|k IH]; intros n; simpl; [done|]. by rewrite IH. Qed.
Lemma le_val_bytes k n : n < 256 ^ k -> le_val (le_bytes k n) = n.
Proof.
  revert n. induction k as [|k IH]; intros n Hn.
  - simpl in *. lia.
  - cbn [le_bytes le_val]. rewrite IH.
    + pose proof (Nat.div_mod n 256 ltac:(lia)). lia.
    + apply Nat.div_lt_upper_bound; [lia|]. rewrite Nat.pow_succ_r' in Hn. lia.
Qed.
Lemma faithful_index k (P : nat -> Prop) : 0 < k -> (forall n, P n -> n < 256 ^ k) -> faithful P (index_repr k).
Proof. intros Hk HP. split; [done|]. intros v Hv. split; [apply le_bytes_length|]. by apply le_val_bytes, HP. Qed.
Lemma faithful_weak {A} (P Q : A -> Prop) (R : repr A) : (forall v, Q v -> P v) -> faithful P R -> faithful Q R.
Proof. intros HQ [H1 H2]. split; [done|]. intros v Hv. auto. Qed.

Section items.
  Context {A : Type} (R : repr A).
  Implicit Types (f rest : bytes) (l : list A).

  Definition item f (j : nat) : A := dec R (take (sz R) (drop (j * sz R) f)).
  Lemma fwrite_cons v l : fwrite R (v :: l) = enc R v ++ fwrite R l.
  Proof. done. Qed.
  Lemma fwrite_app l1 l2 : fwrite R (l1 ++ l2) = fwrite R l1 ++ fwrite R l2.
  Proof. unfold fwrite. by rewrite fmap_app, concat_app. Qed.
  Lemma fwrite_length l : (forall v, v ∈ l -> length (enc R v) = sz R) -> length (fwrite R l) = length l * sz R.
  Proof.
    induction l as [|v l IH]; intros Hl; [done|]. rewrite fwrite_cons, app_length, Hl by left. cbn [length].
    rewrite IH by (intros; apply Hl; by right). lia.
  Qed.
  Lemma drop_fwrite l rest j : (forall v, v ∈ l -> length (enc R v) = sz R) -> j <= length l ->
    drop (j * sz R) (fwrite R l ++ rest) = fwrite R (drop j l) ++ rest.
  Proof.
    intros Hl Hj. rewrite <- (take_drop j l) at 1. rewrite fwrite_app, <- app_assoc.
    rewrite drop_app_alt; [done|]. rewrite fwrite_length; [by rewrite take_length_le|].
    intros v Hv. apply Hl. eapply elem_of_take in Hv as (i & Hi & _). by eapply elem_of_list_lookup_2.
  Qed.
  Lemma item_fwrite l rest j v : faithful (fun w => w ∈ l) R -> l !! j = Some v -> item (fwrite R l ++ rest) j = v.
  Proof.
    intros [Hs Hf] Hj. unfold item. pose proof (lookup_lt_Some _ _ _ Hj).
    assert (v ∈ l) as Hv by (by eapply elem_of_list_lookup_2). destruct (Hf v Hv) as [H1 H2].
    rewrite drop_fwrite by (try (intros; by apply Hf); lia). rewrite (drop_S l v j Hj), fwrite_cons, <- app_assoc.
    rewrite take_app_alt by done. done.
  Qed.

  Lemma fread1_enc v rest b : faithful (fun w => w = v) R -> fread1 R b (enc R v ++ rest) = (1, Some v, rest).
  Proof.
    intros [Hs Hf]. destruct (Hf v eq_refl) as [H1 H2]. unfold fread1. rewrite app_length.
    rewrite decide_True by lia. rewrite take_app_alt, drop_app_alt by done. by rewrite H2.
  Qed.

  (** a read of items from any stream *)
  Lemma fread_items_spec n f : 0 < sz R ->
    exists l f', fread_items R n f = (l, f') /\ length l = Nat.min n (length f / sz R) /\
      (forall j, j < length l -> l !! j = Some (item f j)) /\
      (n <= length f / sz R -> f' = drop (n * sz R) f) /\ (length f / sz R < n -> f' = []).
  Proof.
    intros Hs. revert f. induction n as [|n IH]; intros f; cbn [fread_items].
    - exists [], f. split; [done|]. split; [done|]. split; [intros j Hj; simpl in Hj; lia|]. split; [done|]. intros Hlt. by apply Nat.nlt_0_r in Hlt.
    - destruct (decide (sz R <= length f)) as [Hle|Hgt].
      + destruct (IH (drop (sz R) f)) as (l & f' & -> & Hl & Hi & Hf & Hf0). eexists _, f'. split; [done|].
        assert (Hdiv : length f / sz R = S (length (drop (sz R) f) / sz R)).
        { rewrite drop_length. replace (length f) with ((length f - sz R) + 1 * sz R) at 1 by lia.
          rewrite Nat.div_add by lia. lia. }
        split; [|split; [|split]].
        * cbn [length]. rewrite Hl, Hdiv. lia.
        * intros [|j] Hj; [done|]. cbn [lookup list_lookup length] in *. rewrite Hi by lia. unfold item. rewrite drop_drop. do 3 f_equal.
        * intros Hn. rewrite Hf by lia. rewrite drop_drop. f_equal.
        * intros Hn. apply Hf0. lia.
      + exists [], []. split; [done|]. rewrite Nat.div_small by lia. split; [done|]. split; [intros j Hj; simpl in Hj; lia|]. split; [lia|done].
  Qed.
  Lemma fread_items_fwrite l rest : faithful (fun v => v ∈ l) R -> fread_items R (length l) (fwrite R l ++ rest) = (l, rest).
  Proof.
    intros [Hs Hf]. induction l as [|v l IH]; [done|]. cbn [length fread_items]. rewrite fwrite_cons, <- app_assoc.
    destruct (Hf v ltac:(left)) as [H1 H2]. rewrite app_length, decide_True by lia.
    rewrite drop_app_alt, take_app_alt by done. rewrite IH by (intros w Hw; apply Hf; by right). by rewrite H2.
  Qed.

  (** the reading loop, on any stream *)
  Context `{Widths}.
  Lemma wrap_wadd c n : wadd (wrap c) n = wrap (c + n).
  Proof. unfold wadd, wrap. destruct (decide (itW = 0)) as [->|]; [done|]. by apply Nat.add_mod_idemp_l. Qed.
  Lemma read_loop_spec n c b f (a : arr A) : 0 < sz R -> length a = n ->
    exists b' f' a', read_loop R n (wrap c, b, f) a = Ok (wrap (c + Nat.min n (length f / sz R)), b', f', a') /\
      length a' = n /\ f' = (if decide (n * sz R <= length f) then drop (n * sz R) f else []) /\
      (forall j, j < n -> S j * sz R <= length f -> a' !! j = Some (Some (item f j))).
  Proof.
    intros Hs Ha. unfold read_loop.
    pose (J := fun (i : nat) (st : nat * option A * bytes * arr A) => let '(cnt, b', f', a') := st in
      cnt = wrap (c + Nat.min i (length f / sz R)) /\ length a' = n /\
      f' = (if decide (i * sz R <= length f) then drop (i * sz R) f else []) /\
      (forall j, j < i -> S j * sz R <= length f -> a' !! j = Some (Some (item f j)))).
    match goal with |- context [for_range 0 n ?bd ?i] => assert (Hl : wp (for_range 0 n bd i) (J n)) end.
    { apply wp_for_range; [lia| |].
      - unfold J. simpl. rewrite Nat.add_0_r. split; [done|]. split; [done|]. split; [done|]. intros j Hj; lia.
      - intros i [[[cnt b'] f'] a'] Hi (Hc & Hla & Hf & Hc2). unfold fread1.
        assert (Hdm := Nat.div_mod (length f) (sz R) ltac:(lia)).
        assert (Hmb := Nat.mod_upper_bound (length f) (sz R) ltac:(lia)).
        destruct (decide (S i * sz R <= length f)) as [Hle|Hgt].
        + rewrite decide_True in Hf by lia. subst f'. rewrite decide_True by (rewrite drop_length; lia).
          cbn. unfold astore. rewrite decide_True by lia. cbn. unfold J.
          split; [|split; [|split]].
          * rewrite Hc, wrap_wadd. f_equal.
            assert (S i <= length f / sz R) by (apply Nat.div_le_lower_bound; lia).
            destruct (length f / sz R) as [|q]; lia.
          * by rewrite insert_length.
          * rewrite decide_True by lia. rewrite drop_drop. f_equal. lia.
          * intros j Hj Hjl. destruct (decide (j = i)) as [->|Hne].
            -- rewrite list_lookup_insert by lia. done.
            -- rewrite list_lookup_insert_ne by done. apply Hc2; [lia|done].
        + assert (length f / sz R <= i) as Hdi.
          { assert (length f / sz R < S i); [|lia]. apply Nat.div_lt_upper_bound; lia. }
          assert (Hshort : length f' < sz R).
          { subst f'. case_decide; [rewrite drop_length; lia|simpl; lia]. }
          rewrite decide_False by lia. cbn. unfold astore. rewrite decide_True by lia. cbn. unfold J.
          split; [|split; [|split]].
          * rewrite Hc, wrap_wadd. f_equal. destruct (length f / sz R) as [|q]; lia.
          * by rewrite insert_length.
          * by rewrite decide_False by lia.
          * intros j Hj Hjl. destruct (decide (j = i)) as [->|Hne]; [lia|].
            rewrite list_lookup_insert_ne by done. apply Hc2; [lia|done]. }
    apply wp_exists in Hl as ([[[cnt b'] f'] a'] & -> & -> & H2 & H3 & H4). eauto 10.
  Qed.
  Lemma read_loop_fwrite l rest c b : faithful (fun v => v ∈ l) R ->
    exists b', read_loop R (length l) (wrap c, b, fwrite R l ++ rest) (new_arr (length l)) = Ok (wrap (c + length l), b', rest, full l).
  Proof.
    intros Hf. pose proof Hf as [Hs Hf'].
    assert (Hlen : length (fwrite R l) = length l * sz R) by (apply fwrite_length; intros; by apply Hf').
    destruct (read_loop_spec (length l) c b (fwrite R l ++ rest) (new_arr (length l))) as (b' & f' & a' & -> & Ha & -> & Hc); [done|apply replicate_length|].
    exists b'. rewrite app_length, Hlen. rewrite decide_True by lia. rewrite drop_app_alt by done.
    assert (length l <= (length l * sz R + length rest) / sz R) by (apply Nat.div_le_lower_bound; lia).
    rewrite Nat.min_l by done. do 2 f_equal. apply list_eq. intros j. rewrite full_lookup.
    destruct (decide (j < length l)) as [Hj|Hj].
    - rewrite Hc; [|done|rewrite app_length, Hlen; nia].
      destruct (lookup_lt_is_Some_2 l j Hj) as [v Hv]. rewrite Hv. simpl. do 2 f_equal. by apply item_fwrite.
    - rewrite !lookup_ge_None_2 by lia. done.
  Qed.
End items.
